(** C34: decompress inverts compress on bit streams.
    The full statement is false: [C34_decompress_never_returns_refuted]. What is true is proved:
    nothing but the message is ever returned, and it is returned when the last symbol of the
    message puts out a code bit, or the code ends in 01 and the model is not extreme. Missing for
    the full statement: messages where neither holds (their decoding may never end), and models
    so extreme that the zero symbol gets less than one unit of the interval ([precise]). *)
From Coq Require Import Lra.
From Verif Require Import Model.CtwPTW Spec.ACSpec Proofs.ACModel Proofs.ACTop Proofs.ACKT Proofs.ACBytes Proofs.ACCoin Proofs.ACLossless Proofs.ZipModels Proofs.KTFacts.
Open Scope Z_scope.

(** Whatever [decompress] returns is the message, for any number of loop iterations. *)
Theorem C34_round_trip_safe_partial : forall S (M : model S) Inv okh okw N fuel m bits code,
  lawful M [0; 1] okh okw Inv -> okh [] -> okw 1%R -> (3 <= N)%nat ->
  Inv m -> Forall is_bit bits -> precise M N fuel (enc_init N m) bits ->
  compress (coder_of M) N fuel m bits = Ok code ->
  forall rounds fuel' r,
    decompress (coder_of M) N rounds fuel' m code (Z.of_nat (length bits)) = Ok r -> r = bits.
Proof. exact @round_trip_safe. Qed.
Print Assumptions C34_round_trip_safe_partial.

(** It returns the message if the last symbol put out at least one code bit. *)
Theorem C34_round_trip_last_symbol_partial : forall S (M : model S) Inv okh okw N fuel m bits code,
  lawful M [0; 1] okh okw Inv -> okh [] -> okw 1%R -> (3 <= N)%nat ->
  Inv m -> Forall is_bit bits -> bits <> [] -> precise M N fuel (enc_init N m) bits ->
  compress (coder_of M) N fuel m bits = Ok code ->
  (before_last (coder_of M) N fuel (enc_init N m) bits + 2 < length code)%nat ->
  forall rounds fuel', (N <= rounds)%nat -> (length bits < fuel')%nat ->
    decompress (coder_of M) N rounds fuel' m code (Z.of_nat (length bits)) = Ok bits.
Proof. exact @round_trip_last. Qed.
Print Assumptions C34_round_trip_last_symbol_partial.

(** It returns the message if the code ends in 01 and no probability is extreme. *)
Theorem C34_round_trip_moderate_partial : forall S (M : model S) Inv okh okw N fuel m bits code pre,
  lawful M [0; 1] okh okw Inv -> okh [] -> okw 1%R -> (3 <= N)%nat ->
  (forall m, Inv m -> / 2 ^ (N - 2) <= pred_prob M m 0 [] <= 1 - / 2 ^ (N - 2))%R ->
  Inv m -> Forall is_bit bits -> precise M N fuel (enc_init N m) bits ->
  compress (coder_of M) N fuel m bits = Ok code -> code = pre ++ [0; 1] ->
  exists F, forall rounds fuel', (N <= rounds)%nat -> (F <= fuel')%nat ->
    decompress (coder_of M) N rounds fuel' m code (Z.of_nat (length bits)) = Ok bits.
Proof. exact @round_trip_ok. Qed.
Print Assumptions C34_round_trip_moderate_partial.

(** With KT and the default 32 bits, the message 1 1 is compressed to 1 1 0 and decompressing
    that never returns. *)
Theorem C34_decompress_never_returns_refuted : exists bits code,
  Forall is_bit bits /\ precise (q_model QKT_class) 32 40 (enc_init 32 (qkt_init [0; 1])) bits /\
  compress QKT_coder 32 40 (qkt_init [0; 1]) bits = Ok code /\
  forall rounds fuel r,
    decompress QKT_coder 32 rounds fuel (qkt_init [0; 1]) code (Z.of_nat (length bits)) <> Ok r.
Proof.
  exists [1; 1], [1; 1; 0].
  assert (Hb : Forall is_bit [1; 1]) by (repeat apply Forall_cons; try apply Forall_nil; now right).
  split; [exact Hb|]. split; [|exact qkt_hang].
  exact (kti_precise_ok 32 40 [1; 1] Hb _ _ (kt_erel_init 32) eq_refl).
Qed.
Print Assumptions C34_decompress_never_returns_refuted.

(** The code determines the message, given its length: a decoder could always be found. Neither
    the precision of the model nor the last symbol matter here. *)
Theorem C34_lossless : forall S (M : model S) Inv N fuel m bits bits' code code',
  (2 <= N)%nat -> (N < fuel)%nat -> coherent M Inv ->
  Inv m -> Forall is_bit bits -> Forall is_bit bits' -> length bits = length bits' ->
  compress (coder_of M) N fuel m bits = Ok code -> compress (coder_of M) N fuel m bits' = Ok code' ->
  same_code code code' -> bits = bits'.
Proof. exact @lossless. Qed.
Print Assumptions C34_lossless.

Example C34_lossless_ex : coherent KT.KT_model (kt_inv [0; 1]) /\ kt_inv [0; 1] (KT.kt_init [0; 1]).
Proof.
  split; [apply (lawful_coherent _ any_hist nonneg); [apply kt_lawful|exact I|apply one_ok]|].
  apply kt_inv_init; repeat constructor; cbn; intuition discriminate.
Qed.

(** KT and the message 1 0 1 1 0 0 meet the hypotheses of the first two theorems. *)
Example C34_ex_kt : exists code,
  lawful (q_model QKT_class) [0; 1] (fun _ => True) (fun w => 0 <= w)%R (CtwKTFacts.qkt_inv [0; 1]) /\
  CtwKTFacts.qkt_inv [0; 1] (qkt_init [0; 1]) /\ Forall is_bit [1; 0; 1; 1; 0; 0] /\
  precise (q_model QKT_class) 32 40 (enc_init 32 (qkt_init [0; 1])) [1; 0; 1; 1; 0; 0] /\
  compress QKT_coder 32 40 (qkt_init [0; 1]) [1; 0; 1; 1; 0; 0] = Ok code /\
  (before_last QKT_coder 32 40 (enc_init 32 (qkt_init [0; 1]%Z)) [1; 0; 1; 1; 0; 0]%Z + 2 < length code)%nat.
Proof.
  assert (Hb : Forall is_bit [1; 0; 1; 1; 0; 0])
    by (repeat apply Forall_cons; try apply Forall_nil; (now left) || now right).
  eexists. split; [apply qkt_lawful|]. split; [apply qkt_init_inv|]. split; [exact Hb|].
  split; [exact (kti_precise_ok 32 40 _ Hb _ _ (kt_erel_init 32) eq_refl)|].
  rewrite (kt_compress 32 40 _ Hb). split; [vm_compute; reflexivity|].
  rewrite (kt_before_last 32 40 _ Hb _ _ (kt_erel_init 32)). apply Nat.ltb_lt. vm_compute. reflexivity.
Qed.

(** A fair coin and the message 0 meet those of the third. *)
Example C34_ex_coin :
  (forall m, True -> / 2 ^ (32 - 2) <= pred_prob Coin m 0 [] <= 1 - / 2 ^ (32 - 2))%R /\
  precise Coin 32 40 (enc_init 32 tt) [0] /\
  compress (coder_of Coin) 32 40 tt [0] = Ok ([0] ++ [0; 1]).
Proof.
  split; [|split].
  - intros m _. rewrite coin_prob.
    assert (1 <= 2 ^ 29)%R by (apply pow_R1_Rle; lra). change (32 - 2)%nat with (S 29). cbn [pow].
    rewrite Rinv_mult. assert (0 < / 2 ^ 29 <= 1)%R.
    { split; [apply Rinv_0_lt_compat; lra|]. rewrite <- Rinv_1. apply Rinv_le_contravar; lra. }
    lra.
  - cbn [precise]. split; [|intros; exact I]. rewrite coin_prob.
    cbn [enc_init en_low en_high]. assert (2 <= IZR (top 32 - 0))%R by (apply IZR_le; vm_compute; discriminate). lra.
  - unfold compress. cbn [encode_all]. rewrite coin_encode_zero. vm_compute. reflexivity.
Qed.
