(** A fair coin as a predictive model, for examples about the arithmetic coder. *)
From Coq Require Import Lra.
From Verif Require Import Spec.ACSpec Proofs.RealFacts Proofs.ACFacts Proofs.ACModel.
Open Scope Z_scope.

Definition Coin : model unit := Model (fun s _ _ _ => Ok (s, ln (/ 2))) (fun _ _ _ => Ok (ln (/ 2))).

Lemma coin_lawful okh okw : lawful Coin [0; 1] okh okw (fun _ => True).
Proof.
  split.
  - intros s a h w _ _ _ _. exists s, (ln (/ 2)). auto.
  - intros s h _ _. unfold pred_prob. cbn [Coin m_logp map]. rewrite exp_ln by lra. rewrite !Rsum_cons. cbn. lra.
Qed.

Lemma coin_prob s a h : pred_prob Coin s a h = (/ 2)%R.
Proof. unfold pred_prob. cbn. apply exp_ln. lra. Qed.

Lemma coin_cut r : 0 <= r -> py_int (IZR r * / 2) = r / 2.
Proof.
  intros Hr. unfold py_int. assert (0 <= IZR r)%R by now apply IZR_le.
  destruct (Rle_dec 0 _); [|lra]. apply Int_part_spec.
  pose proof (Z.div_mod r 2 ltac:(lia)) as Hd. pose proof (Z.mod_pos_bound r 2 ltac:(lia)) as Hm.
  apply (f_equal IZR) in Hd. rewrite plus_IZR, mult_IZR in Hd.
  destruct Hm as [H1 H2]. assert (r mod 2 <= 1) as H3 by lia. apply IZR_le in H1, H3. lra.
Qed.

Lemma coin_encode_zero : encode (coder_of Coin) 32 40 (enc_init 32 tt) 0 = Ok (enc_init 32 tt, [0]).
Proof.
  unfold encode. cbn [enc_init en_model en_low en_high en_follow].
  unfold coder_of. cbn [cm_enc Coin m_update bind Z.eqb]. rewrite exp_ln by lra.
  rewrite coin_cut by (vm_compute; discriminate). vm_compute. reflexivity.
Qed.
