(** The round trip for lawful models when the last symbol puts out a bit; the KT of ctw.py. *)
From Coq Require Import Lra.
From Verif Require Import Model.CtwPTW Model.KT Spec.ACSpec Proofs.PyFacts Proofs.RealFacts Proofs.KTFacts Proofs.CtwKTFacts.
From Verif Require Import Proofs.ACFacts Proofs.ACDecode Proofs.ACRound Proofs.ACModel Proofs.ACLength Proofs.ACLast Proofs.ACKT.
Open Scope Z_scope.

Lemma round_trip_last {S} (M : model S) Inv okh okw N fuel m bits code :
  lawful M [0; 1] okh okw Inv -> okh [] -> okw 1%R -> (3 <= N)%nat ->
  Inv m -> Forall is_bit bits -> bits <> [] -> precise M N fuel (enc_init N m) bits ->
  compress (coder_of M) N fuel m bits = Ok code ->
  (before_last (coder_of M) N fuel (enc_init N m) bits + 2 < length code)%nat ->
  forall rounds fuel', (N <= rounds)%nat -> (length bits < fuel')%nat ->
    decompress (coder_of M) N rounds fuel' m code (Z.of_nat (length bits)) = Ok bits.
Proof.
  intros Hlaw Hh Hw HN Hm Hb Hne Hp E Hbl rounds fuel' Hr Hf.
  assert (HN2 : (2 <= N)%nat) by lia.
  destruct (compress_inv _ _ _ _ _ _ E) as (s' & out & E' & ->).
  rewrite app_length, (flush_len (coder_of M) N HN2 fuel m bits s' out E') in Hbl.
  apply (decompress_last (coder_of M) N HN2 fuel m bits s' out); try assumption; try lia.
  eapply precise_path; eauto. apply enc_init_ok. lia.
Qed.

(** Decoding never ends exactly when the model keeps the decoder's loop going after the message. *)
Lemma round_trip_hang {S} (M : model S) Inv okh okw N fuel m bits code s' out :
  lawful M [0; 1] okh okw Inv -> okh [] -> okw 1%R -> (3 <= N)%nat ->
  Inv m -> Forall is_bit bits -> bits <> [] -> precise M N fuel (enc_init N m) bits ->
  encode_all (coder_of M) N fuel (enc_init N m) bits = Ok (s', out) -> code = out ++ enc_flush N s' ->
  before_last (coder_of M) N fuel (enc_init N m) bits = length out ->
  (forall F x, decode_loop (coder_of M) N F (en_model s') (en_low s') (en_high s')
     (if en_low s' <? q1_4 N then q1_4 N else half N) <> Ok x) ->
  forall rounds fuel' r,
    decompress (coder_of M) N rounds fuel' m code (Z.of_nat (length bits)) <> Ok r.
Proof.
  intros Hlaw Hh Hw HN Hm Hb Hne Hp E -> Hbl Hno rounds fuel' r.
  assert (HN2 : (2 <= N)%nat) by lia.
  apply (decompress_hang (coder_of M) N HN2 fuel m bits s' out); try assumption.
  eapply precise_path; eauto. apply enc_init_ok. lia.
Qed.

Lemma qkt_lawful A okh : lawful (q_model QKT_class) A okh (fun w => 0 <= w)%R (qkt_inv A).
Proof.
  split.
  - apply qkt_steps.
  - intros s h Hs Hh.
    rewrite <- (law_norm _ _ _ _ _ (kt_lawful A) (as_kt s) h Hs I).
    f_equal. apply map_ext. intros a. unfold pred_prob. cbn [q_model QKT_class m_logp KT_model].
    now rewrite (qkt_logp A s a h Hs).
Qed.

(** Checking precision with integers. *)
Fixpoint kti_precise (N fuel : nat) (s : @enc kti) (bits : list Z) : bool :=
  match bits with
  | [] => true
  | b :: bits' =>
      (fst (en_model s) + snd (en_model s) <=? (en_high s - en_low s) * fst (en_model s)) &&
      match encode KTI N fuel s b with Ok (s', _) => kti_precise N fuel s' bits' | Err _ => true end
  end.

Lemma kti_precise_ok N fuel bits : Forall is_bit bits -> forall s t, erel kt_rel s t ->
  kti_precise N fuel t bits = true -> precise (q_model QKT_class) N fuel s bits.
Proof.
  induction 1 as [|b bits Hb _ IH]; intros s t Hr H; [exact I|].
  cbn [kti_precise precise] in *. apply andb_true_iff in H as [H1 H2]. apply Z.leb_le in H1.
  pose proof Hr as (Hm & El & Eh & _).
  split.
  - destruct (kt_rel_logp _ _ 0 Hm ltac:(now left)) as (l & E & He).
    unfold pred_prob. cbn [q_model QKT_class m_logp]. rewrite E, He. cbn [Z.eqb].
    destruct Hm as (A0 & A1 & _). rewrite El, Eh.
    assert (Hpos : (0 < IZR (fst (en_model t) + snd (en_model t)))%R) by (apply IZR_lt; lia).
    apply IZR_le in H1. rewrite mult_IZR in H1.
    apply Rmult_le_reg_r with (IZR (fst (en_model t) + snd (en_model t))); [exact Hpos|].
    replace (IZR (en_high t - en_low t) * (IZR (fst (en_model t)) / IZR (fst (en_model t) + snd (en_model t))) *
       IZR (fst (en_model t) + snd (en_model t)))%R with (IZR (en_high t - en_low t) * IZR (fst (en_model t)))%R
      by (field; lra). lra.
  - intros s' out E. pose proof (encode_sim QKT_coder KTI kt_rel N KTI_enc fuel s t b Hr Hb) as Hs.
    unfold QKT_coder in Hs. rewrite E in Hs.
    destruct (encode KTI N fuel t b) as [[t' o']|]; cbn in Hs; [|easy].
    destruct Hs as [Hs _]. apply (IH _ _ Hs H2).
Qed.

Lemma kt_before_last N fuel bits : Forall is_bit bits -> forall s t, erel kt_rel s t ->
  before_last QKT_coder N fuel s bits = before_last KTI N fuel t bits.
Proof.
  induction 1 as [|b bits Hb _ IH]; intros s t Hr; [reflexivity|].
  cbn [before_last].
  pose proof (encode_sim QKT_coder KTI kt_rel N KTI_enc fuel s t b Hr Hb) as Hs.
  destruct (encode QKT_coder N fuel s b) as [[s' o]|], (encode KTI N fuel t b) as [[t' o']|]; cbn in Hs; try easy.
  destruct Hs as [Hs ->]. destruct bits; [reflexivity|]. now rewrite (IH _ _ Hs).
Qed.

Lemma kt_erel_init N : erel kt_rel (enc_init N (qkt_init [0; 1])) (enc_init N (1, 1)).
Proof. repeat split; apply kt_rel_init. Qed.

Lemma qkt_init_inv : qkt_inv [0; 1] (qkt_init [0; 1]).
Proof. apply qkt_inv_init; [repeat constructor; cbn; intuition discriminate|discriminate]. Qed.
