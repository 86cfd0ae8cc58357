(** Cutting off digits is accurate in the sense of Spec/FloatsSpec.v. *)
From Coq Require Import Lra Lia.
From Verif Require Import Spec.FloatsSpec.
From Verif Require Import Proofs.RealFacts Proofs.KTRedundancy Proofs.FloatsFacts.
Open Scope R_scope.

Lemma floor_bounds r : IZR (up r - 1) <= r < IZR (up r - 1) + 1.
Proof. destruct (archimed r) as [H1 H2]. rewrite minus_IZR. lra. Qed.

Lemma floor_int z : (up (IZR z) - 1)%Z = z.
Proof.
  destruct (floor_bounds (IZR z)) as [H1 H2]. rewrite <- (plus_IZR _ 1) in H2. apply le_IZR in H1. apply lt_IZR in H2. lia.
Qed.

Lemma pow2_exp e : powerRZ 2 e = exp (IZR e * ln 2).
Proof.
  assert (N : forall n, 2 ^ n = exp (INR n * ln 2)).
  { induction n as [|n IH]; [cbn; rewrite Rmult_0_l, exp_0; reflexivity|].
    rewrite S_INR, Rmult_plus_distr_r, exp_plus, <- IH, Rmult_1_l, exp_ln by lra. cbn. ring. }
  destruct e as [|p|p]; cbn [powerRZ].
  - rewrite Rmult_0_l, exp_0. reflexivity.
  - rewrite N, INR_IZR_INZ, positive_nat_Z. reflexivity.
  - rewrite N, INR_IZR_INZ, positive_nat_Z, <- exp_Ropp. f_equal. change (Z.neg p) with (- Z.pos p)%Z. rewrite opp_IZR. ring.
Qed.

Lemma pow2_add e f : powerRZ 2 (e + f) = powerRZ 2 e * powerRZ 2 f.
Proof. apply powerRZ_add. lra. Qed.
Lemma pow2_pos e : 0 < powerRZ 2 e.
Proof. apply powerRZ_lt. lra. Qed.

Lemma expo_le x : x <> 0 -> powerRZ 2 (expo x) <= Rabs x.
Proof.
  intros Hx. rewrite pow2_exp. apply Rabs_pos_lt in Hx. pose proof ln2_bounds.
  apply Rle_trans with (exp (ln (Rabs x))); [|rewrite exp_ln by exact Hx; lra]. apply exp_le_mono.
  destruct (floor_bounds (ln (Rabs x) / ln 2)) as [H1 _]. fold (expo x) in H1.
  apply Rmult_le_compat_r with (r := ln 2) in H1; [|lra]. unfold Rdiv in H1. rewrite Rmult_assoc, Rinv_l, Rmult_1_r in H1 by lra. exact H1.
Qed.

Lemma pow2_le e f : powerRZ 2 e <= powerRZ 2 f -> (e <= f)%Z.
Proof.
  rewrite !pow2_exp. intros H. apply le_IZR. destruct (Rle_lt_dec (IZR e) (IZR f)) as [|Hl]; [assumption|exfalso].
  pose proof ln2_bounds. apply Rmult_lt_compat_r with (r := ln 2) in Hl; [|lra]. apply exp_increasing in Hl. lra.
Qed.

Lemma chop_rel p x : Rabs (chop p x - x) <= powerRZ 2 (- p) * Rabs x.
Proof.
  unfold chop. destruct (Req_EM_T x 0) as [-> | Hx]; [rewrite Rminus_0_r, Rabs_R0; lra|]. cbv zeta.
  set (s := powerRZ 2 (expo x - p)). pose proof (pow2_pos (expo x - p)) as Hs. fold s in Hs.
  destruct (floor_bounds (x / s)) as [H1 H2]. set (z := IZR (up (x / s) - 1)) in *.
  assert (E : s * (x / s) = x) by (field; lra).
  apply Rmult_le_compat_l with (r := s) in H1; [|lra]. apply Rmult_lt_compat_l with (r := s) in H2; [|lra]. rewrite E in *.
  apply Rle_trans with s; [apply Rabs_le; lra|].
  unfold s, Z.sub. rewrite pow2_add, Rmult_comm. apply Rmult_le_compat_l; [left; apply pow2_pos|]. apply expo_le. exact Hx.
Qed.

Lemma pow2_Z n : (0 <= n)%Z -> powerRZ 2 n = IZR (2 ^ n).
Proof.
  intros H. rewrite <- (Z2Nat.id n H). generalize (Z.to_nat n). clear. intros k. rewrite <- pow_powerRZ.
  induction k as [|k IH]; [reflexivity|]. rewrite Nat2Z.inj_succ, Z.pow_succ_r, mult_IZR, <- IH by lia. reflexivity.
Qed.

Lemma pow2_m1 : powerRZ 2 (-1) = / 2.
Proof. unfold powerRZ. rewrite Pos2Nat.inj_1, pow_1. reflexivity. Qed.

Lemma chop_half p m : (0 <= p)%Z -> (Z.of_nat m <= 2 ^ p)%Z -> chop p (INR m / 2) = INR m / 2.
Proof.
  intros Hp Hm. unfold chop. destruct (Req_EM_T _ 0) as [E|Hx]; [symmetry; exact E|]. cbv zeta.
  pose proof (expo_le _ Hx) as He. pose proof (pos_INR m). rewrite Rabs_right in He by lra.
  assert (Hmp : INR m <= powerRZ 2 p) by (rewrite pow2_Z, INR_IZR_INZ by exact Hp; apply IZR_le; exact Hm).
  assert (He2 : (expo (INR m / 2) <= p - 1)%Z).
  { apply pow2_le. replace (p - 1)%Z with (p + -1)%Z by lia. rewrite pow2_add, pow2_m1. lra. }
  set (e := expo (INR m / 2)) in *. set (s := powerRZ 2 (e - p)). pose proof (pow2_pos (e - p)) as Hs. fold s in Hs.
  assert (Hq : INR m / 2 / s = IZR (Z.of_nat m * 2 ^ (p - 1 - e))).
  { rewrite mult_IZR, <- INR_IZR_INZ, <- pow2_Z by lia.
    apply Rmult_eq_reg_r with s; [|lra]. unfold Rdiv at 1. rewrite Rmult_assoc, Rinv_l, Rmult_1_r by lra.
    rewrite Rmult_assoc. unfold s. rewrite <- pow2_add. replace (p - 1 - e + (e - p))%Z with (-1)%Z by lia. rewrite pow2_m1. reflexivity. }
  rewrite Hq, floor_int, <- Hq. field. lra.
Qed.

Lemma chopped_accurate p big : (0 <= p)%Z -> accurate (chopped p) (powerRZ 2 (- p)) big (Z.to_nat (2 ^ p)).
Proof.
  intros Hp. split; cbn [chopped f_add f_sub f_div f_exp f_log].
  - intros x y _. apply chop_rel.
  - intros x y _. apply chop_rel.
  - intros j k [Hj _] [Hk _]. assert (1 <= INR j) by (apply (le_INR 1); lia). assert (1 <= INR k) by (apply (le_INR 1); lia).
    replace (INR j / 2 / (INR k / 2)) with (INR j / INR k) by (field; lra).
    eapply Rle_trans; [apply chop_rel|]. rewrite Rabs_right; [lra|]. left. apply Rdiv_lt_0_compat; lra.
  - intros j k H. replace (INR j / 2 + INR k / 2) with (INR (j + k) / 2) by (rewrite plus_INR; lra).
    apply chop_half; [exact Hp|]. pose proof (Z.pow_nonneg 2 p). lia.
  - intros x Hx. pose proof (exp_pos x) as Px. assert (exp x <= 1) by (rewrite <- exp_0; apply exp_le_mono; exact Hx).
    split.
    + unfold chop. destruct (Req_EM_T _ 0); [lra|]. cbv zeta. set (s := powerRZ 2 _). assert (0 < s) by apply pow2_pos.
      apply Rmult_le_pos; [lra|]. destruct (floor_bounds (exp x / s)) as [_ H2].
      assert (0 < exp x / s) by (apply Rdiv_lt_0_compat; lra).
      rewrite <- (plus_IZR _ 1) in H2. assert (H3 : 0 < IZR (up (exp x / s) - 1 + 1)) by lra. apply lt_IZR in H3. apply IZR_le. lia.
    + eapply Rle_trans; [apply chop_rel|]. rewrite Rabs_right by lra. pose proof (pow2_pos (- p)). nra.
  - intros x Hx. eapply Rle_trans; [apply chop_rel|]. apply Rmult_le_compat_l; [left; apply pow2_pos|]. lra.
Qed.

Lemma allowance_le n : allowance n <= 4 * (INR n * (2 * INR n + 1) + 2) + 22.
Proof.
  unfold allowance. pose proof (pos_INR n). pose proof (exp_ineq1_le (ln (2 * INR n + 2))) as E. rewrite exp_ln in E by lra.
  assert (INR n * ln (2 * INR n + 2) <= INR n * (2 * INR n + 1)) by (apply Rmult_le_compat_l; lra). lra.
Qed.

Lemma chopped_example : let u := powerRZ 2 (-52) in let n := 7%nat in
  accurate (chopped 52) u 1000 (Z.to_nat (2 ^ 52)) /\ 0 <= u <= / 64 /\ (2 * n + 2 <= Z.to_nat (2 ^ 52))%nat /\
  allowance n <= 1000 /\ INR n * u * ((INR 8 + 1) * allowance n) <= 1 /\
  chop 52 (1 / 3) <> 1 / 3.
Proof.
  cbv zeta. set (u := powerRZ 2 (-52)).
  assert (Hu : u = / IZR (2 ^ 52)).
  { unfold u. replace (-52)%Z with (- (52))%Z by reflexivity. rewrite <- pow2_Z by lia.
    apply Rmult_eq_reg_r with (powerRZ 2 52); [|apply Rgt_not_eq, pow2_pos].
    rewrite <- pow2_add, Rinv_l by (apply Rgt_not_eq, pow2_pos). reflexivity. }
  change (2 ^ 52)%Z with 4503599627370496%Z in Hu.
  pose proof (allowance_le 7) as HA. cbn [INR] in HA.
  assert (H0 : 0 <= allowance 7).
  { unfold allowance. pose proof (pos_INR 7). assert (0 <= ln (2 * INR 7 + 2)) by (rewrite <- ln_1; apply ln_le; lra). nra. }
  split; [apply (chopped_accurate 52 1000); lia|].
  split; [rewrite Hu; lra|]. split; [change (2 ^ 52)%Z with 4503599627370496%Z; lia|].
  split; [lra|]. split.
  - cbn [INR]. rewrite Hu. lra.
  - unfold chop. destruct (Req_EM_T _ 0) as [E|_]; [lra|]. cbv zeta. set (e := expo (1 / 3)). intros E.
    pose proof (expo_le (1 / 3) ltac:(lra)) as He. fold e in He. rewrite Rabs_right in He by lra.
    assert (He0 : (e <= 0)%Z) by (apply pow2_le; cbn; lra).
    replace (e - 52)%Z with (- (52 - e))%Z in E by lia. set (z := up _) in E.
    assert (E2 : 3 * IZR (z - 1) = IZR (2 ^ (52 - e))).
    { rewrite <- pow2_Z by lia. apply Rmult_eq_reg_l with (powerRZ 2 (- (52 - e))); [|apply Rgt_not_eq, pow2_pos].
      rewrite <- pow2_add. replace (- (52 - e) + (52 - e))%Z with 0%Z by lia. cbn [powerRZ]. lra. }
    rewrite <- mult_IZR in E2. apply eq_IZR in E2.
    assert (H3 : ((2 ^ (52 - e)) mod 3 = 0)%Z) by (rewrite <- E2, Z.mul_comm; apply Z.mod_mul; lia).
    assert (Hn : forall k, ((2 ^ Z.of_nat k) mod 3 <> 0)%Z).
    { clear. induction k as [|k IH]; [cbn; lia|]. rewrite Nat2Z.inj_succ, Z.pow_succ_r by lia.
      pose proof (Z.div_mod (2 ^ Z.of_nat k) 3 ltac:(lia)). pose proof (Z.mod_pos_bound (2 ^ Z.of_nat k) 3 ltac:(lia)).
      pose proof (Z.div_mod (2 * 2 ^ Z.of_nat k) 3 ltac:(lia)). pose proof (Z.mod_pos_bound (2 * 2 ^ Z.of_nat k) 3 ltac:(lia)). lia. }
    apply (Hn (Z.to_nat (52 - e))). rewrite Z2Nat.id by lia. exact H3.
Qed.

Lemma ptw_example : let u := powerRZ 2 (-52) in let n := 7%nat in
  accurate (chopped 52) u 2000 (Z.to_nat (2 ^ 52)) /\ 0 <= u <= / 64 /\ (2 * n + 2 <= Z.to_nat (2 ^ 52))%nat /\
  allowance n <= 2000 /\ INR n * u * ((INR 8 + 1) * allowance n) <= 1 /\
  2 * ptw_size n (kt_most n) 1 + 6 <= 2000 /\
  25 * (INR n * ptw_loss u n (kt_most n) 1 (INR n * u * ((2 * INR 8 + 3) * allowance n))) <= 1 /\
  2 * ptw_size n (kt_most n) 0 + 6 <= 2000 /\
  25 * (INR n * ptw_loss u n (kt_most n) 0 (u * (kt_most n + 4))) <= 1.
Proof.
  cbv zeta. destruct chopped_example as (_ & H2 & H3 & H4 & H5 & _). set (u := powerRZ 2 (-52)) in *.
  assert (Hu : u = / IZR (2 ^ 52)).
  { unfold u. replace (-52)%Z with (- (52))%Z by reflexivity. rewrite <- pow2_Z by lia.
    apply Rmult_eq_reg_r with (powerRZ 2 52); [|apply Rgt_not_eq, pow2_pos].
    rewrite <- pow2_add, Rinv_l by (apply Rgt_not_eq, pow2_pos). reflexivity. }
  change (2 ^ 52)%Z with 4503599627370496%Z in Hu.
  assert (HL : 0 <= kt_most 7 <= 15).
  { unfold kt_most. cbn [INR]. split; [rewrite <- ln_1; apply ln_le; lra|].
    pose proof (exp_ineq1_le (ln (2 * (1 + 1 + 1 + 1 + 1 + 1 + 1) + 2))) as E. rewrite exp_ln in E by lra. lra. }
  assert (H0 : 0 <= allowance 7).
  { unfold allowance. pose proof (pos_INR 7). assert (0 <= ln (2 * INR 7 + 2)) by (rewrite <- ln_1; apply ln_le; lra). nra. }
  split; [apply (chopped_accurate 52 2000); lia|]. split; [exact H2|]. split; [exact H3|]. split; [lra|]. split; [exact H5|].
  unfold ptw_loss, ptw_size. cbn [INR] in *. rewrite Hu in *. repeat split; lra.
Qed.
