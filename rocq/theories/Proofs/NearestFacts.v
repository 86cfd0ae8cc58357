(** There is a logarithm rounded to nearest. *)
From Coq Require Import Lra Lia R_Ifp.
From Verif Require Import Model.NumUtils Spec.NumSpec Proofs.NumUtilsFacts.
Open Scope R_scope.

(** The nearest multiple of 2^(k-52), where 2^k <= l < 2^(k+1). *)
Definition nearest (l : R) : R :=
  let e := (Z.log2 (Int_part l) - 52)%Z in IZR (Int_part (l / powerRZ 2 e + / 2)) * powerRZ 2 e.

Lemma nearest_ok l : 1 <= l -> double (nearest l) /\ forall y, double y -> Rabs (nearest l - l) <= Rabs (y - l).
Proof.
  intros Hl. pose proof (base_Int_part l) as [B1 B2].
  assert (Hz : (1 <= Int_part l)%Z).
  { assert (0 < Int_part l)%Z; [|lia]. apply lt_IZR. lra. }
  unfold nearest. cbv zeta.
  set (z := Int_part l) in *. set (k := Z.log2 z). pose proof (Z.log2_nonneg z) as Hk. fold k in Hk.
  destruct (Z.log2_spec z ltac:(lia)) as [L1 L2]. fold k in L1, L2.
  assert (P1 : powerRZ 2 k <= l).
  { destruct (Z_of_nat_complete k Hk) as [n Hn]. rewrite Hn, <- pow_powerRZ, <- IZR_pow2, <- Hn. apply IZR_le in L1. lra. }
  assert (P2 : l < powerRZ 2 (k + 1)).
  { destruct (Z_of_nat_complete (k + 1) ltac:(lia)) as [n Hn]. rewrite Hn, <- pow_powerRZ, <- IZR_pow2, <- Hn.
    assert (H : (z + 1 <= 2 ^ (k + 1))%Z) by lia. apply IZR_le in H. rewrite plus_IZR in H. lra. }
  set (e := (k - 52)%Z) in *. set (g := powerRZ 2 e). assert (He : 0 < g) by (apply powerRZ_lt; lra).
  assert (E52 : IZR (2 ^ 52) * g = powerRZ 2 k).
  { change 52%Z with (Z.of_nat 52). rewrite IZR_pow2, pow_powerRZ. unfold g. rewrite <- powerRZ_add by lra. f_equal. unfold e. lia. }
  assert (E53 : IZR (2 ^ 53) * g = powerRZ 2 (k + 1)).
  { change 53%Z with (Z.of_nat 53). rewrite IZR_pow2, pow_powerRZ. unfold g. rewrite <- powerRZ_add by lra. f_equal. unfold e. lia. }
  pose proof (base_Int_part (l / g + / 2)) as [C1 C2]. set (m := Int_part (l / g + / 2)) in *.
  set (x := l / g) in *. assert (Ex : l = x * g) by (unfold x; field; lra). clearbody x.
  (* x is between 2^52 and 2^53, m is a nearest integer *)
  assert (X1 : IZR (2 ^ 52) <= x) by (apply (Rmult_le_reg_r g); [exact He|lra]).
  assert (X2 : x < IZR (2 ^ 53)) by (apply (Rmult_lt_reg_r g); [exact He|lra]).
  assert (M1 : (2 ^ 52 <= m)%Z) by (assert (2 ^ 52 - 1 < m)%Z; [|lia]; apply lt_IZR; rewrite minus_IZR; lra).
  assert (M2 : (m <= 2 ^ 53)%Z) by (assert (m < 2 ^ 53 + 1)%Z; [|lia]; apply lt_IZR; rewrite plus_IZR; lra).
  assert (N : forall j, Rabs (IZR m - x) <= Rabs (IZR j - x)).
  { intros j. destruct (Z_dec j m) as [[Lt|Gt]| ->]; [| |lra].
    - assert (IZR j <= IZR m - 1) by (rewrite <- minus_IZR; apply IZR_le; lia). unfold Rabs. destruct (Rcase_abs (IZR m - x)), (Rcase_abs (IZR j - x)); lra.
    - assert (IZR m + 1 <= IZR j) by (rewrite <- plus_IZR; apply IZR_le; lia). unfold Rabs. destruct (Rcase_abs (IZR m - x)), (Rcase_abs (IZR j - x)); lra. }
  assert (Ng : forall j, Rabs (IZR m * g - l) <= Rabs (IZR j * g - l)).
  { intros j. rewrite Ex. replace (IZR m * g - x * g) with ((IZR m - x) * g) by lra. replace (IZR j * g - x * g) with ((IZR j - x) * g) by lra.
    rewrite !Rabs_mult, (Rabs_right g) by lra. apply Rmult_le_compat_r; [lra|apply N]. }
  split.
  - destruct (Z.eq_dec m (2 ^ 53)) as [->|Hne].
    + exists (2 ^ 52)%Z, (e + 1)%Z. split; [rewrite Z.abs_eq; lia|]. rewrite powerRZ_add, powerRZ_1 by lra. fold g.
      replace (IZR (2 ^ 53)) with (IZR (2 ^ 52) * 2) by (rewrite <- mult_IZR; reflexivity). lra.
    + exists m, e. split; [rewrite Z.abs_eq; lia|reflexivity].
  - intros y (m' & e' & Hm' & ->). assert (Hpe : 0 < powerRZ 2 e') by (apply powerRZ_lt; lra).
    destruct (Rle_dec (powerRZ 2 k) (IZR m' * powerRZ 2 e')) as [Hge|Hlt].
    + assert (He' : (e <= e')%Z).
      { destruct (Z_le_gt_dec e e') as [|Gt]; [assumption|exfalso].
        assert (A : 2 * powerRZ 2 e' <= g).
        { unfold g. replace e with (e' + (1 + (e - e' - 1)))%Z by lia. rewrite !powerRZ_add, powerRZ_1 by lra.
          assert (1 <= powerRZ 2 (e - e' - 1)).
          { destruct (Z_of_nat_complete (e - e' - 1) ltac:(lia)) as [n ->]. rewrite <- pow_powerRZ. apply pow_R1_Rle. lra. }
          nra. }
        assert (Hb : IZR m' < IZR (2 ^ 53)) by (apply IZR_lt; lia).
        assert (E2 : IZR (2 ^ 53) = 2 * IZR (2 ^ 52)) by (rewrite <- mult_IZR; reflexivity). rewrite <- E52 in Hge.
        assert (0 < IZR (2 ^ 52)) by (apply IZR_lt; lia). set (w := IZR (2 ^ 52)) in *. clearbody w. rewrite E2 in Hb.
        assert (IZR m' * powerRZ 2 e' < 2 * w * powerRZ 2 e') by (apply Rmult_lt_compat_r; lra). nra. }
      destruct (Z_of_nat_complete (e' - e) ltac:(lia)) as [n Hn].
      replace (IZR m' * powerRZ 2 e') with (IZR (m' * 2 ^ Z.of_nat n) * g); [apply Ng|].
      rewrite mult_IZR, IZR_pow2, pow_powerRZ, Rmult_assoc. unfold g. rewrite <- powerRZ_add by lra. do 2 f_equal. lia.
    + eapply Rle_trans; [apply (Ng (2 ^ 52)%Z)|]. rewrite E52. rewrite (Rabs_left1 (powerRZ 2 k - l)) by lra. rewrite Rabs_left1 by lra. lra.
Qed.

Definition log2_rounded (x : Z) : R := if (x =? 1)%Z then 0 else nearest (Rlog2 (IZR x)).

Lemma rounded_nearest : log2_nearest log2_rounded.
Proof.
  intros x Hx. unfold log2_rounded. destruct (Z.eqb_spec x 1) as [->|Hne].
  - split; [exists 0%Z, 0%Z; split; [lia|cbn; lra]|]. intros y _.
    replace (Rlog2 1) with 0 by (unfold Rlog2; rewrite ln_1; unfold Rdiv; lra). rewrite Rminus_0_r, Rabs_R0. apply Rabs_pos.
  - apply nearest_ok. apply log2_at_least. lia.
Qed.
