(** A model for which the coder wastes most of a bit in every three symbols; files of z.py. *)
From Coq Require Import Lra.
From Verif Require Import Spec.ACSpec Spec.ZipSpec Spec.KTSpec Proofs.PyFacts Proofs.RealFacts Proofs.ACFacts Proofs.ACModel Proofs.ACLength Proofs.ACLossless Proofs.KTRedundancy Proofs.ZipModels Proofs.ZipFacts Proofs.ZipTop Proofs.ZipRuns Proofs.ACOverhead Proofs.ACRedundancy.
Open Scope R_scope.

(** Probabilities of zero that depend only on the number of symbols seen, modulo three. *)
Definition wz (s : nat) : R :=
  match s with O => 2147483647 / 4294967296 | 1%nat => 2 / 2147483649 | _ => / 1024 end.
Definition wnext (s : nat) : nat := match s with O => 1%nat | 1%nat => 2%nat | _ => 0%nat end.
Definition wlog (s : nat) (a : Z) : R := ln (if (a =? 0)%Z then wz s else 1 - wz s).
Definition Waste : model nat := Model (fun s a _ _ => Ok (wnext s, wlog s a)) (fun s a _ => Ok (wlog s a)).

Lemma wz_range s : 0 < wz s < 1.
Proof. unfold wz. destruct s as [|[|s]]; lra. Qed.

Lemma waste_lawful okh okw : lawful Waste [0; 1]%Z okh okw (fun _ => True).
Proof.
  split.
  - intros s a h w _ _ _ _. exists (wnext s), (wlog s a). auto.
  - intros s h _ _. unfold pred_prob. cbn [Waste m_logp map]. unfold wlog. cbn [Z.eqb].
    pose proof (wz_range s). rewrite !Rsum_cons, Rsum_nil, !exp_ln by lra. lra.
Qed.

Lemma py_int_IZR z : (0 <= z)%Z -> py_int (IZR z) = z.
Proof. intros H. unfold py_int. destruct (Rle_dec 0 (IZR z)) as [_|n]; [apply Int_part_spec; lra|]. apply IZR_le in H. lra. Qed.

Lemma waste_cut s a r : (a = 0 \/ a = 1)%Z ->
  cm_enc (coder_of Waste) s a r = Ok (wnext s, Z.max 1 (py_int (IZR r * wz s))).
Proof.
  intros Ha. unfold coder_of. cbn [cm_enc Waste m_update bind]. unfold wlog. pose proof (wz_range s).
  destruct Ha as [-> | ->]; cbn [Z.eqb]; rewrite exp_ln by lra; [reflexivity|].
  replace (1 - (1 - wz s)) with (wz s) by lra. reflexivity.
Qed.

Lemma round_code : exists out, length out = 32%nat /\
  encode_all (coder_of Waste) 32 40 (enc_init 32 0%nat) [1; 0; 1]%Z = Ok (enc_init 32 0%nat, out).
Proof.
  assert (E1 : encode (coder_of Waste) 32 40 (enc_init 32 0%nat) 1 = Ok (Enc 1%nat 2147483647 4294967296 0, [])).
  { unfold encode. rewrite waste_cut by (now right).
    replace (IZR (en_high (enc_init 32 0%nat) - en_low (enc_init 32 0%nat)) * wz (en_model (enc_init 32 0%nat))) with (IZR 2147483647).
    2: { cbn [enc_init en_model en_low en_high wz]. change (top 32 - 0)%Z with 4294967296%Z. field. }
    rewrite py_int_IZR by lia. vm_compute. reflexivity. }
  assert (E2 : encode (coder_of Waste) 32 40 (Enc 1%nat 2147483647 4294967296 0) 0 = Ok (Enc 2%nat 2147483647 2147483649 0, [])).
  { unfold encode. rewrite waste_cut by (now left). cbn [en_model en_low en_high wz].
    change (4294967296 - 2147483647)%Z with 2147483649%Z.
    replace (IZR 2147483649 * (2 / 2147483649)) with (IZR 2) by field.
    rewrite py_int_IZR by lia. vm_compute. reflexivity. }
  assert (E3 : exists out, length out = 32%nat /\ encode (coder_of Waste) 32 40 (Enc 2%nat 2147483647 2147483649 0) 1 = Ok (enc_init 32 0%nat, out)).
  { unfold encode. rewrite waste_cut by (now right). cbn [en_model en_low en_high wz].
    change (2147483649 - 2147483647)%Z with 2%Z.
    replace (py_int (IZR 2 * / 1024)) with 0%Z.
    2: { symmetry. unfold py_int. destruct (Rle_dec 0 (2 * / 1024)); [|lra]. apply Int_part_spec. lra. }
    eexists. split; [|vm_compute; reflexivity]. reflexivity. }
  destruct E3 as (out & Hl & E3). exists out. split; [exact Hl|].
  cbn [encode_all]. rewrite E1. cbn [bind encode_all]. rewrite E2. cbn [bind encode_all]. rewrite E3. cbn [bind app]. now rewrite app_nil_r.
Qed.

Lemma encode_all_cat {S} (C : coder_model S) N fuel a b : forall s s1 s2 o1 o2,
  encode_all C N fuel s a = Ok (s1, o1) -> encode_all C N fuel s1 b = Ok (s2, o2) -> encode_all C N fuel s (a ++ b) = Ok (s2, o1 ++ o2).
Proof.
  induction a as [|x a IH]; intros s s1 s2 o1 o2 E1 E2; cbn [app encode_all] in *; [injection E1 as <- <-; exact E2|].
  destruct (encode C N fuel s x) as [[t p]|]; [|discriminate]. cbn [bind] in *.
  destruct (encode_all C N fuel t a) as [[t' p']|] eqn:Ea; [|discriminate]. cbn [bind] in E1. injection E1 as <- <-.
  rewrite (IH _ _ _ _ _ Ea E2). cbn [bind]. now rewrite app_assoc.
Qed.

Fixpoint rounds (c : nat) : list Z := match c with O => [] | S c' => ([1; 0; 1] ++ rounds c')%Z end.

Lemma rounds_code c : exists out, length out = (32 * c)%nat /\
  encode_all (coder_of Waste) 32 40 (enc_init 32 0%nat) (rounds c) = Ok (enc_init 32 0%nat, out).
Proof.
  induction c as [|c (o & Hl & E)]; [exists []; now split|].
  destruct round_code as (o1 & Hl1 & E1). exists (o1 ++ o). split; [rewrite app_length, Hl, Hl1; lia|].
  exact (encode_all_cat _ 32 40 [1; 0; 1]%Z (rounds c) _ _ _ _ _ E1 E).
Qed.

Lemma rounds_prob c : ln (seq_prob Waste 0%nat (unit_events (rounds c))) = INR c * (ln (1 - / 1024) - 31 * ln 2) /\
  0 < seq_prob Waste 0%nat (unit_events (rounds c)).
Proof.
  induction c as [|c [IH Hp]]; [cbn; rewrite ln_1; split; lra|].
  set (P := seq_prob Waste 0%nat (unit_events (rounds c))) in *.
  assert (E : seq_prob Waste 0%nat (unit_events (rounds (S c))) = (1 - / 1024) * (/ 2) ^ 31 * P).
  { cbn [rounds app unit_events map seq_prob Waste m_update ev_sym ev_hist ev_wt wnext]. fold (unit_events (rounds c)). fold Waste. fold P.
    unfold wlog. cbn [Z.eqb wz]. rewrite !exp_ln by lra. cbn [pow]. field. }
  rewrite E. assert (0 < (/ 2) ^ 31) by (apply pow_lt; lra).
  assert (0 < (1 - / 1024) * (/ 2) ^ 31) by nra.
  split; [|nra]. rewrite ln_mult by lra. rewrite ln_mult by lra. rewrite ln_pow by lra. rewrite ln_Rinv by lra.
  rewrite IH, (S_INR c). replace (INR 31) with 31 by (cbn; lra). ring.
Qed.

Lemma rounds_bits c : Forall is_bit (rounds c).
Proof. induction c; cbn [rounds app]; repeat constructor; try assumption; (now left) || now right. Qed.

(** One round costs 32 bits of code and less than 31.01 bits of loss. *)
Lemma waste_unbounded B : exists bits code, Forall is_bit bits /\ compress (coder_of Waste) 32 40 0%nat bits = Ok code /\
  B + - ln (seq_prob Waste 0%nat (unit_events bits)) / ln 2 < INR (length code).
Proof.
  assert (exists c, 2 * Rabs B < INR c) as (c & Hc).
  { exists (Z.to_nat (up (2 * Rabs B))). destruct (archimed (2 * Rabs B)) as [H _]. pose proof (Rabs_pos B).
    rewrite INR_IZR_INZ, Z2Nat.id; [exact H|]. apply le_IZR. lra. }
  destruct (rounds_code c) as (out & Hl & E). exists (rounds c), (out ++ [0; 1]%Z).
  split; [apply rounds_bits|]. split.
  - unfold compress. rewrite E. cbn [bind]. reflexivity.
  - rewrite app_length, plus_INR, Hl, mult_INR. destruct (rounds_prob c) as [-> _].
    replace (INR 32) with 32 by (cbn; lra). cbn [length]. change (INR 2) with 2.
    assert (Hln : - ln (1 - / 1024) <= / 512).
    { rewrite <- ln_Rinv by lra. apply Rle_trans with (ln (1 + / 512)); [apply ln_le; [apply Rinv_0_lt_compat; lra|lra]|]. apply ln_below. lra. }
    pose proof ln_lt_2 as H2. pose proof (pos_INR c) as Hc0.
    assert (Hd : - (INR c * (ln (1 - / 1024) - 31 * ln 2)) / ln 2 <= INR c * (31 + / 256)).
    { apply Rmult_le_reg_r with (ln 2); [lra|].
      replace (- (INR c * (ln (1 - / 1024) - 31 * ln 2)) / ln 2 * ln 2) with (INR c * (- ln (1 - / 1024) + 31 * ln 2)) by (field; lra).
      rewrite Rmult_assoc. apply Rmult_le_compat_l; [exact Hc0|]. lra. }
    pose proof (Rle_abs B). lra.
Qed.

(** ** z.py *)
Lemma zip_redundancy name data code out : coded name data code -> holds code out ->
  exists S (M : model S) m, used name S M m /\
    let loss := - ln (seq_prob M m (unit_events (bits_of_file data))) / ln 2 in
    20 * (INR (8 * length out) - 9) <= 26 * (loss + INR (8 * length data) / (64 * ln 2) + 6).
Proof.
  intros (S & M & m & HU & HC) Hh. exists S, M, m. split; [exact HU|]. cbv zeta.
  destruct (used_coherent _ _ _ _ HU) as (Inv & HI & Hi).
  destruct (code_redundancy M Inv 32 6 33 ltac:(lia) ltac:(lia) (coherent_at_most_one M Inv HI) ltac:(lia) ltac:(lia) ltac:(cbn; lia)
              m _ code Hi (file_bits_bits data) (HC 33%nat ltac:(lia))) as [_ HL].
  replace (INR 32) with 32 in HL by (cbn; lra). replace (INR 6) with 6 in HL by (cbn; lra). replace (2 ^ 6) with 64 in HL by (cbn; lra).
  assert (Hlen : length (bits_of_file data) = (8 * length data)%nat).
  { unfold bits_of_file. clear. induction data as [|x data IH]; [reflexivity|]. cbn [flat_map]. rewrite app_length, IH. cbn [length]. lia. }
  rewrite Hlen in HL.
  destruct (holds_length _ _ Hh) as [H _]. assert (H' : (8 * length out <= length code + 7)%nat) by lia.
  apply le_INR in H'. rewrite plus_INR in H'. replace (INR 7) with 7 in H' by (cbn; lra). lra.
Qed.

Lemma file_length data : length (bits_of_file data) = (8 * length data)%nat.
Proof. unfold bits_of_file. induction data as [|x data IH]; [reflexivity|]. cbn [flat_map]. rewrite app_length, IH. cbn [length]. lia. Qed.

Lemma zip_kt_redundancy data code out theta : coded (lit "KT") data code -> holds code out -> data <> [] -> 0 <= theta <= 1 ->
  0 < coin_prob theta (bits_of_file data) ->
  20 * (INR (8 * length out) - 9) <=
  26 * (- ln (coin_prob theta (bits_of_file data)) / ln 2 + ln (INR (8 * length data)) / (2 * ln 2) + INR (8 * length data) / (64 * ln 2) + 7).
Proof.
  intros HC Hh Hd Ht Hp. destruct (zip_redundancy _ _ _ _ HC Hh) as (S & M & m & HU & HL). cbv zeta in HL.
  set (bs := bits_of_file data) in *.
  assert (Hne : bs <> []) by (destruct data; [easy|discriminate]).
  assert (Hb : bits bs). { pose proof (file_bits_bits data) as H. fold bs in H. unfold bits. rewrite Forall_forall in *. intros x Hx. destruct (H x Hx); cbn; auto. }
  assert (EQ : seq_prob M m (unit_events bs) = seq_prob KT_model (kt_init [0; 1]%Z) (unit_events bs)).
  { clear -HU. remember (lit "KT") as nm eqn:En. destruct HU; [reflexivity|discriminate|discriminate]. }
  rewrite EQ in HL.
  pose proof (kt_redundancy_prob bs theta Hb Hne Ht) as HK.
  assert (Hl : length bs = (8 * length data)%nat) by apply file_length.
  assert (Hn : 0 < INR (length bs)) by (apply lt_0_INR; destruct bs; [easy|cbn; lia]).
  assert (Hs : 0 < sqrt (INR (length bs))) by (apply sqrt_lt_R0; exact Hn).
  apply (fun H => ln_le _ _ H) in HK; [|apply Rdiv_lt_0_compat; [exact Hp|lra]].
  assert (EL : ln (coin_prob theta bs / (2 * sqrt (INR (length bs)))) = ln (coin_prob theta bs) - ln 2 - / 2 * ln (INR (length bs))).
  { unfold Rdiv. rewrite ln_mult; [|exact Hp|apply Rinv_0_lt_compat; lra]. rewrite ln_Rinv by lra. rewrite ln_mult by lra.
    rewrite <- (sqrt_sqrt (INR (length bs))) at 2 by lra. rewrite ln_mult by assumption. lra. }
  rewrite EL in HK. rewrite <- Hl in *.
  set (Q := seq_prob KT_model (kt_init [0; 1]%Z) (unit_events bs)) in *.
  pose proof ln2_pos as Hg.
  assert (- ln Q / ln 2 <= - ln (coin_prob theta bs) / ln 2 + ln (INR (length bs)) / (2 * ln 2) + 1).
  { apply Rmult_le_reg_r with (ln 2); [exact Hg|].
    replace ((- ln (coin_prob theta bs) / ln 2 + ln (INR (length bs)) / (2 * ln 2) + 1) * ln 2)
      with (- ln (coin_prob theta bs) + / 2 * ln (INR (length bs)) + ln 2) by (field; lra).
    replace (- ln Q / ln 2 * ln 2) with (- ln Q) by (field; lra). lra. }
  lra.
Qed.

Lemma code_not_constant : exists S (M : model S) (Inv : S -> Prop) (m : S), lawful M [0; 1]%Z (fun _ => True) (fun _ => True) Inv /\ Inv m /\
  forall B : R, exists bits code, Forall is_bit bits /\ compress (coder_of M) 32 40 m bits = Ok code /\
    B + - ln (seq_prob M m (unit_events bits)) / ln 2 < INR (length code).
Proof. exists nat, Waste, (fun _ => True), 0%nat. split; [apply waste_lawful|]. split; [exact I|exact waste_unbounded]. Qed.
