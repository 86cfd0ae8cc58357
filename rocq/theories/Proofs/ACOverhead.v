(** The length of the code against the log loss of the model itself. *)
From Coq Require Import Lra.
From Verif Require Import Spec.ACSpec Spec.KTSpec Proofs.PyFacts Proofs.RealFacts Proofs.ACFacts Proofs.ACDecode Proofs.ACRound Proofs.ACModel Proofs.ACLength Proofs.KTRedundancy.
Open Scope R_scope.

(** ** A convex sequence lies below its chord *)
Lemma sum_small (a : nat -> R) : (forall n m, (n <= m)%nat -> a (S n) - a n <= a (S m) - a m) ->
  forall e k, (e <= k)%nat -> a e - a 0%nat <= INR e * (a (S k) - a k).
Proof.
  intros Ha. induction e as [|e IH]; intros k Hk; [cbn; lra|].
  specialize (IH k ltac:(lia)). specialize (Ha e k ltac:(lia)). rewrite S_INR. lra.
Qed.

Lemma chord (a : nat -> R) : (forall n m, (n <= m)%nat -> a (S n) - a n <= a (S m) - a m) ->
  forall e k, (e <= k)%nat -> INR k * (a e - a 0%nat) <= INR e * (a k - a 0%nat).
Proof.
  intros Ha e k Hk. induction Hk as [|k Hk IH]; [lra|].
  pose proof (sum_small a Ha e k Hk). rewrite S_INR. lra.
Qed.

Lemma ln2_pos : 0 < ln 2.
Proof. rewrite <- ln_1. apply ln_increasing; lra. Qed.

Lemma ln_below x : 0 < x -> ln (1 + x) <= x.
Proof. intros H. rewrite <- (ln_exp x) at 2. apply ln_le; [lra|]. left. apply exp_ineq1. lra. Qed.

Lemma pow2_pos n : 0 < 2 ^ n.
Proof. apply pow_lt. lra. Qed.

Lemma log_chord k e : (1 <= k)%nat -> (e <= k)%nat -> ln (1 + 2 ^ e / 2 ^ k) <= / 2 ^ k + INR e / INR k * ln 2.
Proof.
  intros H1 He. set (a := fun n => ln (1 + 2 ^ n / 2 ^ k)).
  pose proof (pow2_pos k) as Hk.
  assert (Hd : forall n, a (S n) - a n = ln ((1 + 2 * (2 ^ n / 2 ^ k)) / (1 + 2 ^ n / 2 ^ k))).
  { intros n. unfold a. assert (0 < 2 ^ n / 2 ^ k) by (apply Rdiv_lt_0_compat; [apply pow2_pos|exact Hk]).
    unfold Rdiv at 3. rewrite ln_mult; [|lra|apply Rinv_0_lt_compat; lra]. rewrite ln_Rinv by lra.
    replace (2 ^ S n / 2 ^ k) with (2 * (2 ^ n / 2 ^ k)) by (cbn [pow]; field; lra). lra. }
  assert (Ha : forall n m, (n <= m)%nat -> a (S n) - a n <= a (S m) - a m).
  { intros n m Hnm. rewrite !Hd.
    assert (X : 0 < 2 ^ n / 2 ^ k) by (apply Rdiv_lt_0_compat; [apply pow2_pos|exact Hk]).
    assert (Y : 2 ^ n / 2 ^ k <= 2 ^ m / 2 ^ k).
    { apply Rmult_le_compat_r; [left; now apply Rinv_0_lt_compat|]. apply Rle_pow; [lra|exact Hnm]. }
    set (x := 2 ^ n / 2 ^ k) in *. set (y := 2 ^ m / 2 ^ k) in *.
    apply ln_le; [apply Rdiv_lt_0_compat; lra|].
    replace ((1 + 2 * x) / (1 + x)) with (2 - / (1 + x)) by (field; lra).
    replace ((1 + 2 * y) / (1 + y)) with (2 - / (1 + y)) by (field; lra).
    assert (/ (1 + y) <= / (1 + x)) by (apply Rinv_le_contravar; lra). lra. }
  pose proof (chord a Ha e k He) as H.
  assert (A0 : a 0%nat <= / 2 ^ k).
  { unfold a. cbn [pow]. replace (1 / 2 ^ k) with (/ 2 ^ k) by (field; lra). apply ln_below. now apply Rinv_0_lt_compat. }
  assert (A0' : 0 <= a 0%nat).
  { unfold a. cbn [pow]. rewrite <- ln_1. apply ln_le; [lra|]. assert (0 < 1 / 2 ^ k) by (apply Rdiv_lt_0_compat; lra). lra. }
  assert (Ak : a k = ln 2).
  { unfold a. f_equal. field. lra. }
  fold (a e). rewrite Ak in H.
  assert (HK : 0 < INR k) by (apply lt_0_INR; lia). pose proof (pos_INR e) as He0.
  apply Rmult_le_reg_l with (INR k); [exact HK|].
  replace (INR k * (/ 2 ^ k + INR e / INR k * ln 2)) with (INR k * / 2 ^ k + INR e * ln 2) by (field; lra).
  nra.
Qed.

(** ** One symbol *)
(** The potential of an interval of [r] units. *)
Definition phi (k : nat) (r : Z) : R := ln (IZR (Z.min r (2 ^ Z.of_nat k))).

Section overhead.
  Variables (N k : nat).
  Hypotheses (Hk1 : (1 <= k)%nat) (HkN : (k < N)%nat) (Hkk : (N <= k * (k + 1))%nat).
  Local Notation alpha := (INR k / (INR N - INR k)).

  Lemma NK : 0 < INR N - INR k.
  Proof. apply lt_INR in HkN. lra. Qed.
  Lemma alpha_k : / INR k <= alpha.
  Proof.
    pose proof NK as HNK. assert (HK : 0 < INR k) by (apply lt_0_INR; lia).
    apply le_INR in Hkk. rewrite mult_INR, plus_INR in Hkk. change (INR 1) with 1 in Hkk.
    apply Rmult_le_reg_l with (INR k * (INR N - INR k)); [nra|].
    replace (INR k * (INR N - INR k) * / INR k) with (INR N - INR k) by (field; lra).
    replace (INR k * (INR N - INR k) * alpha) with (INR k * INR k) by (field; lra). nra.
  Qed.
  Lemma alpha_pos : 0 < alpha.
  Proof. pose proof NK. apply Rdiv_lt_0_compat; [apply lt_0_INR; lia|lra]. Qed.

  Lemma IZR_p2 n : IZR (2 ^ Z.of_nat n) = 2 ^ n.
  Proof. symmetry. apply pow_IZR. Qed.

  Lemma phi_big r : (2 ^ Z.of_nat k <= r)%Z -> phi k r = INR k * ln 2.
  Proof. intros H. unfold phi. rewrite Z.min_r by exact H. rewrite IZR_p2. apply ln_pow. lra. Qed.
  Lemma phi_small r : (r <= 2 ^ Z.of_nat k)%Z -> phi k r = ln (IZR r).
  Proof. intros H. unfold phi. now rewrite Z.min_l by exact H. Qed.
  Lemma phi_le r : (1 <= r)%Z -> 0 <= phi k r <= INR k * ln 2.
  Proof.
    intros H. unfold phi. pose proof (Z.pow_pos_nonneg 2 (Z.of_nat k) ltac:(lia) ltac:(lia)).
    assert (H1 : 1 <= IZR (Z.min r (2 ^ Z.of_nat k))) by (apply IZR_le; lia).
    split; [rewrite <- ln_1; apply ln_le; lra|].
    rewrite <- (ln_pow 2 ltac:(lra)), <- IZR_p2. apply ln_le; [lra|]. apply IZR_le. lia.
  Qed.

  Lemma symbol_overhead r w e p : (1 <= w <= r)%Z -> 0 < p <= 1 -> p * IZR r <= IZR w + 1 ->
    ((r < 2 ^ Z.of_nat k)%Z -> (1 <= e)%nat -> (N - k <= e)%nat) ->
    ln p + ln (IZR r) - ln (IZR w) + phi k (w * 2 ^ Z.of_nat e) - phi k r <= alpha * (INR e * ln 2) + / 2 ^ k.
  Proof.
    intros Hw Hp Hpr Hfar. pose proof NK as HNK. pose proof alpha_pos as Hal. pose proof ln2_pos as Hg. pose proof (pos_INR e) as He0.
    assert (HK : 0 < INR k) by (apply lt_0_INR; lia).
    assert (Hb : 0 < / 2 ^ k) by (apply Rinv_0_lt_compat, pow2_pos).
    pose proof (Z.pow_pos_nonneg 2 (Z.of_nat k) ltac:(lia) ltac:(lia)) as HP.
    pose proof (Z.pow_pos_nonneg 2 (Z.of_nat e) ltac:(lia) ltac:(lia)) as HPe.
    assert (Hw1 : 1 <= IZR w) by (apply IZR_le; lia). assert (Hr1 : IZR w <= IZR r) by (apply IZR_le; lia).
    assert (Hae : 0 <= alpha * (INR e * ln 2)) by (apply Rmult_le_pos; [lra|apply Rmult_le_pos; lra]).
    assert (Eq : ln (1 + / IZR w) = ln (IZR w + 1) - ln (IZR w)).
    { replace (1 + / IZR w) with ((IZR w + 1) * / IZR w) by (field; lra).
      rewrite ln_mult; [|lra|apply Rinv_0_lt_compat; lra]. rewrite ln_Rinv by lra. lra. }
    assert (A1 : ln p + ln (IZR r) - ln (IZR w) <= ln (1 + / IZR w)).
    { rewrite Eq. rewrite <- ln_mult by lra.
      assert (ln (p * IZR r) <= ln (IZR w + 1)) by (apply ln_le; [nra|exact Hpr]). lra. }
    assert (A2 : ln p <= 0) by (rewrite <- ln_1; apply ln_le; lra).
    assert (Hww : (w <= w * 2 ^ Z.of_nat e)%Z) by nia.
    destruct (Z.le_gt_cases (2 ^ Z.of_nat k) w) as [Hbig|Hbig].
    - rewrite !phi_big by lia.
      assert (ln (1 + / IZR w) <= / IZR w) by (apply ln_below, Rinv_0_lt_compat; lra).
      assert (/ IZR w <= / 2 ^ k).
      { apply Rinv_le_contravar; [apply pow2_pos|]. rewrite <- IZR_p2. now apply IZR_le. }
      lra.
    - destruct (Z.le_gt_cases (2 ^ Z.of_nat k) r) as [Hr|Hr].
      + rewrite (phi_big r) by exact Hr.
        destruct (Z.lt_ge_cases (w * 2 ^ Z.of_nat e) (2 ^ Z.of_nat k)) as [Hs|Hs].
        * rewrite phi_small by lia.
          assert (Hek : (e <= k)%nat).
          { destruct (Nat.le_gt_cases e k) as [H|H]; [exact H|].
            assert (2 ^ Z.of_nat k <= 2 ^ Z.of_nat e)%Z by (apply Z.pow_le_mono_r; lia). nia. }
          assert (Hs' : ((w + 1) * 2 ^ Z.of_nat e <= 2 ^ Z.of_nat k)%Z).
          { assert (X : (2 ^ Z.of_nat k = 2 ^ Z.of_nat (k - e) * 2 ^ Z.of_nat e)%Z) by (rewrite <- Z.pow_add_r by lia; f_equal; lia).
            rewrite X in Hs |- *. apply Z.mul_lt_mono_pos_r in Hs; [|exact HPe]. apply Z.mul_le_mono_nonneg_r; lia. }
          apply IZR_le in Hs'. rewrite mult_IZR, plus_IZR, !IZR_p2 in Hs'.
          pose proof (pow2_pos e) as H2e.
          assert (L : ln ((IZR w + 1) * 2 ^ e) <= INR k * ln 2).
          { rewrite <- (ln_pow 2 ltac:(lra)). apply ln_le; [nra|exact Hs']. }
          rewrite ln_mult in L by lra. rewrite mult_IZR, IZR_p2, ln_mult by lra.
          lra.
        * rewrite (phi_big (w * _)) by exact Hs.
          assert (B : ln (1 + / IZR w) <= / 2 ^ k + alpha * (INR e * ln 2)).
          { destruct (Nat.le_gt_cases e k) as [Hek|Hek].
            - apply Rle_trans with (ln (1 + 2 ^ e / 2 ^ k)).
              + apply ln_le; [assert (0 < / IZR w) by (apply Rinv_0_lt_compat; lra); lra|]. apply Rplus_le_compat_l.
                apply IZR_le in Hs. rewrite mult_IZR, !IZR_p2 in Hs. pose proof (pow2_pos e). pose proof (pow2_pos k).
                apply Rmult_le_reg_l with (IZR w * 2 ^ k); [nra|].
                replace (IZR w * 2 ^ k * / IZR w) with (2 ^ k) by (field; lra).
                replace (IZR w * 2 ^ k * (2 ^ e / 2 ^ k)) with (IZR w * 2 ^ e) by (field; lra). exact Hs.
              + eapply Rle_trans; [apply (log_chord k e Hk1 Hek)|]. apply Rplus_le_compat_l.
                replace (INR e / INR k * ln 2) with (/ INR k * (INR e * ln 2)) by (field; lra).
                apply Rmult_le_compat_r; [nra|exact alpha_k].
            - assert (ln (1 + / IZR w) <= ln 2).
              { assert (/ IZR w <= 1) by (rewrite <- Rinv_1; apply Rinv_le_contravar; lra).
                assert (0 < / IZR w) by (apply Rinv_0_lt_compat; lra). apply ln_le; lra. }
              assert (1 <= alpha * INR e).
              { pose proof alpha_k. assert (INR k <= INR e) by (apply le_INR; lia).
                assert (1 = / INR k * INR k) by (field; lra).
                assert (0 < / INR k) by (apply Rinv_0_lt_compat; lra). nra. }
              nra. }
          lra.
      + rewrite (phi_small r) by lia.
        destruct (Nat.eq_dec e 0) as [->|He].
        * cbn [Z.of_nat]. change (2 ^ 0)%Z with 1%Z. rewrite Z.mul_1_r, phi_small by lia. lra.
        * specialize (Hfar Hr ltac:(lia)).
          assert (Hph := proj2 (phi_le (w * 2 ^ Z.of_nat e) ltac:(lia))).
          assert (Hln : 0 <= ln (IZR w)) by (rewrite <- ln_1; apply ln_le; lra).
          assert (Hke : INR k * ln 2 <= alpha * (INR e * ln 2)).
          { assert (INR N - INR k <= INR e) by (rewrite <- minus_INR by lia; apply le_INR; lia).
            replace (INR k * ln 2) with (alpha * ((INR N - INR k) * ln 2)) by (field; lra).
            apply Rmult_le_compat_l; [lra|]. apply Rmult_le_compat_r; lra. }
          lra.
  Qed.
End overhead.
