(** mscb through a rounded logarithm; argmax; bins. *)
From Coq Require Import Lra Lia R_Ifp.
From Verif Require Import Model.NumUtils Spec.NumSpec.
From Verif Require Import Proofs.RealFacts Proofs.PyFacts Proofs.HelpersFacts Proofs.LogsumexpFacts.
Open Scope R_scope.

Lemma lxor_all_ones : forall t, (0 <= t)%Z -> Z.lxor t (t + 1) = (2 ^ (mscb t + 1) - 1)%Z.
Proof.
  intros t0 Ht0. refine (Z_lt_induction (fun t => 0 <= t -> Z.lxor t (t + 1) = (2 ^ (mscb t + 1) - 1))%Z _ t0 Ht0 Ht0). clear.
  intros t IH Ht. destruct (Z.Even_or_Odd t) as [[k ->]|[k ->]].
  - rewrite mscb_even by lia. change (2 ^ (0 + 1) - 1)%Z with 1%Z.
    apply Z.bits_inj'. intros n Hn. rewrite Z.lxor_spec. destruct (Z.eq_dec n 0) as [->|Hn0].
    + rewrite Z.testbit_even_0, Z.testbit_odd_0. reflexivity.
    + replace n with (Z.succ (n - 1)) by lia.
      rewrite Z.testbit_even_succ, Z.testbit_odd_succ by lia.
      rewrite xorb_nilpotent. change 1%Z with (2 * 0 + 1)%Z. rewrite Z.testbit_odd_succ, Z.bits_0 by lia. reflexivity.
  - rewrite mscb_odd by lia. pose proof (mscb_nonneg k ltac:(lia)) as Hm.
    replace (Z.lxor (2 * k + 1) (2 * k + 1 + 1)) with (2 * Z.lxor k (k + 1) + 1)%Z.
    + rewrite (IH k) by lia. rewrite (Z.pow_add_r 2 (mscb k + 1) 1) by lia. change (2 ^ 1)%Z with 2%Z. lia.
    + replace (2 * k + 1 + 1)%Z with (2 * (k + 1))%Z by lia.
      apply Z.bits_inj'. intros n Hn. rewrite Z.lxor_spec. destruct (Z.eq_dec n 0) as [->|Hn0].
      * rewrite Z.testbit_even_0, !Z.testbit_odd_0. reflexivity.
      * replace n with (Z.succ (n - 1)) by lia.
        rewrite Z.testbit_even_succ, !Z.testbit_odd_succ by lia. rewrite Z.lxor_spec. reflexivity.
Qed.

(** ** Logarithms of 2^j - 1 *)
Lemma ln2_pos : 0 < ln 2.
Proof. rewrite <- ln_1. apply ln_increasing; lra. Qed.
Lemma ln2_lt1 : ln 2 < 1.
Proof. rewrite <- (ln_exp 1). apply ln_increasing; [lra|]. pose proof (exp_ineq1 1 ltac:(lra)). lra. Qed.

Lemma IZR_pow2 j : IZR (2 ^ Z.of_nat j) = 2 ^ j.
Proof. rewrite <- (pow_IZR 2 j). reflexivity. Qed.

Lemma log2_pow j : Rlog2 (2 ^ j) = INR j.
Proof. unfold Rlog2. rewrite ln_pow by lra. field. pose proof ln2_pos; lra. Qed.

Lemma log2_upper j : (1 <= j)%nat -> Rlog2 (2 ^ j - 1) <= INR j - / 2 ^ j.
Proof.
  intros Hj. assert (Hp : 2 <= 2 ^ j) by (destruct j; [lia|]; cbn [pow]; pose proof (pow_R1_Rle 2 j ltac:(lra)); lra).
  unfold Rlog2. pose proof ln2_pos as H2. pose proof ln2_lt1 as H21. assert (Hi : 0 < / 2 ^ j) by (apply Rinv_0_lt_compat; lra).
  replace (2 ^ j - 1) with (2 ^ j * (1 - / 2 ^ j)) by (field; lra).
  assert (Hi1 : / 2 ^ j <= / 2) by (apply Rinv_le_contravar; lra).
  rewrite ln_mult by lra. rewrite ln_pow by lra.
  assert (ln (1 - / 2 ^ j) <= - / 2 ^ j).
  { rewrite <- (ln_exp (- / 2 ^ j)). destruct (Req_dec (1 - / 2 ^ j) (exp (- / 2 ^ j))) as [->|Hne]; [lra|].
    left. apply ln_increasing; [lra|]. pose proof (exp_ineq1_le (- / 2 ^ j)). lra. }
  apply (Rmult_le_reg_r (ln 2)); [exact H2|]. unfold Rdiv. rewrite Rmult_assoc, Rinv_l, Rmult_1_r by lra. nra.
Qed.

Lemma log2_lower j : (2 <= j)%nat -> INR j - / 2 <= Rlog2 (2 ^ j - 1).
Proof.
  intros Hj. unfold Rlog2. pose proof ln2_pos as H2.
  assert (Hp : 4 <= 2 ^ j) by (destruct j as [|[|j]]; [lia|lia|]; cbn [pow]; pose proof (pow_R1_Rle 2 j ltac:(lra)); lra).
  apply (Rmult_le_reg_r (ln 2)); [exact H2|]. unfold Rdiv. rewrite Rmult_assoc, Rinv_l, Rmult_1_r by lra.
  (* square: 2^(2j-1) <= (2^j - 1)^2 *)
  assert (E : 2 * ((INR j - / 2) * ln 2) = ln (2 ^ j * 2 ^ j * / 2)).
  { rewrite !ln_mult by (try apply Rmult_lt_0_compat; lra). rewrite ln_Rinv, ln_pow by lra. lra. }
  assert (ln (2 ^ j * 2 ^ j * / 2) <= ln ((2 ^ j - 1) * (2 ^ j - 1))).
  { assert (L : 2 ^ j * 2 ^ j * / 2 < (2 ^ j - 1) * (2 ^ j - 1)) by nra. left. apply ln_increasing; [nra|exact L]. }
  rewrite (ln_mult (2 ^ j - 1)) in H by lra. lra.
Qed.

Lemma Int_part_at x z : IZR z <= x < IZR z + 1 -> Int_part x = z.
Proof. intros [H1 H2]. pose proof (base_Int_part x) as [B1 B2]. assert (Int_part x < z + 1)%Z by (apply lt_IZR; rewrite plus_IZR; lra). assert (z < Int_part x + 1)%Z by (apply lt_IZR; rewrite plus_IZR; lra). lia. Qed.

(** With relative error u the result is right as long as (m+1) 2^(m+1) u < 1. *)
Lemma mscb_within u f t : (0 <= t)%Z -> 0 <= u <= / 4 -> log2_within u f ->
  IZR (mscb t + 1) * IZR (2 ^ (mscb t + 1)) * u < 1 -> u_mscb f t = mscb t.
Proof.
  intros Ht Hu Hf Hs. pose proof (mscb_nonneg t Ht) as Hm. unfold u_mscb. rewrite (lxor_all_ones t Ht).
  set (m := mscb t) in *. clearbody m. destruct (Z_of_nat_complete (m + 1) ltac:(lia)) as [j Hj]. rewrite Hj in *.
  rewrite <- INR_IZR_INZ, IZR_pow2 in Hs.
  assert (Hj1 : (1 <= j)%nat) by lia. assert (Hm' : m = (Z.of_nat j - 1)%Z) by lia.
  assert (Hp : 2 <= 2 ^ j) by (destruct j; [lia|]; cbn [pow]; pose proof (pow_R1_Rle 2 j ltac:(lra)); lra).
  assert (Hpos : (0 < 2 ^ Z.of_nat j - 1)%Z) by (apply lt_IZR; rewrite minus_IZR, IZR_pow2; lra).
  pose proof (Hf _ Hpos) as G. rewrite minus_IZR, IZR_pow2 in G. set (l := Rlog2 (2 ^ j - 1)) in *.
  set (x := f (2 ^ Z.of_nat j - 1)%Z) in *. clearbody x.
  pose proof (log2_upper j Hj1) as U. fold l in U.
  assert (Hi : 0 < / 2 ^ j) by (apply Rinv_0_lt_compat; lra).
  assert (Hju : INR j * u < / 2 ^ j).
  { apply (Rmult_lt_reg_r (2 ^ j)); [lra|]. rewrite Rinv_l by lra. nra. }
  assert (HIZ : IZR m = INR j - 1) by (rewrite Hm', minus_IZR, <- INR_IZR_INZ; lra).
  assert (L : INR j - 1 <= x /\ x < INR j).
  { destruct (Nat.eq_dec j 1) as [->|Hj2].
    - assert (l = 0) as L0 by (unfold l, Rlog2; replace (2 ^ 1 - 1) with 1 by (cbn; lra); rewrite ln_1; unfold Rdiv; lra).
      rewrite L0, Rabs_R0, Rmult_0_r, Rminus_0_r in G. pose proof (Rabs_pos x). assert (Rabs x = 0) by lra.
      destruct (Req_dec x 0) as [->|Hx]; [cbn; lra|]. pose proof (Rabs_no_R0 x Hx). contradiction.
    - pose proof (log2_lower j ltac:(lia)) as L. fold l in L.
      assert (2 <= INR j) by (change 2 with (INR 2); apply le_INR; lia).
      rewrite (Rabs_right l) in G by lra. apply Rabs_le_between in G || (unfold Rabs in G).
      assert (u * l <= u * INR j) by (apply Rmult_le_compat_l; lra).
      assert (u * INR j < / 2).
      { assert (/ 2 ^ j <= / 2) by (apply Rinv_le_contravar; lra). lra. }
      destruct (Rcase_abs (x - l)); lra. }
  destruct L as [L1 L2]. assert (1 <= INR j) by (change 1 with (INR 1); apply le_INR; lia).
  destruct (Rle_dec 0 x); [|lra]. apply Int_part_at. rewrite HIZ. lra.
Qed.

(** ** Rounding to nearest: at t = 2^48 - 1 the logarithm rounds up *)
Lemma ln_ge y : 0 < y -> 1 - / y <= ln y.
Proof.
  intros Hy. pose proof (exp_ineq1_le (- ln y)) as H. rewrite exp_Ropp, exp_ln in H by exact Hy. lra.
Qed.
Lemma ln2_big : 5 / 8 <= ln 2.
Proof.
  assert (H3 : 1 <= ln 3).
  { rewrite <- (ln_exp 1). destruct exp_le_3 as [H|H]; [|rewrite H; lra]. left. apply ln_increasing; [apply exp_pos|exact H]. }
  assert (H43 : / 4 <= ln (4 / 3)) by (pose proof (ln_ge (4 / 3) ltac:(lra)) as H; replace (1 - / (4 / 3)) with (/ 4) in H by field; exact H).
  assert (E : 2 * ln 2 = ln 3 + ln (4 / 3)).
  { rewrite <- ln_mult by lra. replace (3 * (4 / 3)) with (2 * 2) by field. rewrite ln_mult by lra. lra. }
  lra.
Qed.

Lemma log2_just_below j : (10 <= j)%nat -> INR j - 2 * / 2 ^ j < Rlog2 (2 ^ j - 1) < INR j.
Proof.
  intros Hj. assert (Hp : 1024 <= 2 ^ j).
  { replace j with (10 + (j - 10))%nat by lia. rewrite pow_add. replace (2 ^ 10) with 1024 by (cbn; lra).
    pose proof (pow_R1_Rle 2 (j - 10) ltac:(lra)). lra. }
  split.
  - unfold Rlog2. pose proof ln2_big as H2. assert (Hi : 0 < / 2 ^ j) by (apply Rinv_0_lt_compat; lra).
    assert (Hi1 : / 2 ^ j <= / 1024) by (apply Rinv_le_contravar; lra).
    replace (2 ^ j - 1) with (2 ^ j * (1 - / 2 ^ j)) by (field; lra).
    rewrite ln_mult by lra. rewrite ln_pow by lra. pose proof (ln_ge (1 - / 2 ^ j) ltac:(lra)) as G.
    set (x := / 2 ^ j) in *. assert (G2 : - (x * (1 + / 1000)) <= 1 - / (1 - x)).
    { apply (Rmult_le_reg_r (1 - x)); [lra|]. replace ((1 - / (1 - x)) * (1 - x)) with (- x) by (field; lra). nra. }
    apply (Rmult_lt_reg_r (ln 2)); [lra|]. unfold Rdiv. rewrite Rmult_assoc, Rinv_l, Rmult_1_r by lra. nra.
  - pose proof (log2_upper j ltac:(lia)). assert (0 < / 2 ^ j) by (apply Rinv_0_lt_compat; lra). lra.
Qed.

(** Doubles between 32 and 64 are multiples of 2^-47. *)
Lemma double_grid r : double r -> 32 < r < 64 -> exists z, r = IZR z * powerRZ 2 (-47).
Proof.
  intros (m & e & Hm & ->) Hr. assert (Hpe : 0 < powerRZ 2 e) by (apply powerRZ_lt; lra).
  assert (Hm0 : 0 < IZR m) by (destruct (Rlt_dec 0 (IZR m)); [assumption|nra]).
  assert (He : (-47 <= e)%Z).
  { destruct (Z_le_gt_dec (-47) e) as [|Hlt]; [assumption|exfalso].
    assert (powerRZ 2 e <= powerRZ 2 (-48)).
    { replace (-48)%Z with (e + (-48 - e))%Z by lia. rewrite powerRZ_add by lra.
      assert (1 <= powerRZ 2 (-48 - e)).
      { destruct (Z_of_nat_complete (-48 - e) ltac:(lia)) as [k ->]. rewrite <- pow_powerRZ. apply pow_R1_Rle. lra. }
      nra. }
    assert (Hmb : IZR m < IZR (2 ^ 53)) by (apply IZR_lt; apply lt_IZR in Hm0; lia).
    assert (E : IZR (2 ^ 53) * powerRZ 2 (-48) = 32).
    { change 53%Z with (Z.of_nat 53). rewrite IZR_pow2, pow_powerRZ, <- powerRZ_add by lra. change (Z.of_nat 53 + -48)%Z with (Z.of_nat 5). rewrite <- pow_powerRZ. cbn; lra. }
    assert (0 < powerRZ 2 (-48)) by (apply powerRZ_lt; lra). nra. }
  destruct (Z_of_nat_complete (e + 47) ltac:(lia)) as [k Hk]. exists (m * 2 ^ Z.of_nat k)%Z.
  rewrite mult_IZR, IZR_pow2, pow_powerRZ. rewrite Rmult_assoc, <- powerRZ_add by lra. do 2 f_equal. lia.
Qed.

Lemma double_49 : double 49.
Proof. exists 49%Z, 0%Z. split; [lia|]. cbn. lra. Qed.

Lemma rounds_up f : log2_nearest f -> f (2 ^ 49 - 1)%Z = 49.
Proof.
  intros Hf. destruct (Hf (2 ^ 49 - 1)%Z ltac:(lia)) as [Hd Hn]. specialize (Hn 49 double_49).
  assert (E : IZR (2 ^ 49 - 1) = 2 ^ 49 - 1).
  { rewrite minus_IZR. change 49%Z with (Z.of_nat 49). rewrite IZR_pow2. reflexivity. }
  rewrite E in Hn. pose proof (log2_just_below 49 ltac:(lia)) as [B1 B2].
  assert (EI : INR 49 = 49) by (cbn; lra). rewrite EI in B1, B2. set (l := Rlog2 (2 ^ 49 - 1)) in *. clearbody l.
  assert (Ex : 2 * / 2 ^ 49 = powerRZ 2 (-48)).
  { replace (2 ^ 49) with (2 * powerRZ 2 48) by (change 48%Z with (Z.of_nat 48); rewrite <- pow_powerRZ; reflexivity). rewrite Rinv_mult by (try apply Rgt_not_eq, powerRZ_lt; lra).
    rewrite <- Rmult_assoc, Rinv_r, Rmult_1_l by lra. reflexivity. }
  rewrite Ex in B1. assert (E2 : powerRZ 2 (-47) = 2 * powerRZ 2 (-48)).
  { replace (-47)%Z with (1 + -48)%Z by lia. rewrite powerRZ_add by lra. rewrite powerRZ_1. reflexivity. }
  set (q := powerRZ 2 (-48)) in *. assert (Hq : 0 < q) by (apply powerRZ_lt; lra). assert (Hq1 : q <= 1).
  { rewrite <- Ex. assert (2 <= 2 ^ 49) by (change (2 ^ 49) with (2 * 2 ^ 48); pose proof (pow_R1_Rle 2 48 ltac:(lra)); lra).
    apply (Rmult_le_reg_r (2 ^ 49)); [lra|]. rewrite Rmult_assoc, Rinv_l by lra. lra. }
  set (r := f (2 ^ 49 - 1)%Z) in *. clearbody r.
  rewrite (Rabs_right (49 - l)) in Hn by lra.
  assert (Hr : 49 - 2 * q < r < 49 + q) by (unfold Rabs in Hn; destruct (Rcase_abs (r - l)); lra).
  destruct (double_grid r Hd ltac:(lra)) as [z Hz]. fold q in E2. rewrite E2 in Hz.
  assert (E49 : 49 = IZR (49 * 2 ^ 47) * (2 * q)).
  { rewrite mult_IZR. change 47%Z with (Z.of_nat 47). rewrite IZR_pow2, pow_powerRZ. change (Z.of_nat 47) with 47%Z.
    rewrite <- E2, Rmult_assoc, <- powerRZ_add by lra. change (47 + -47)%Z with 0%Z. rewrite powerRZ_O. lra. }
  assert (z = 49 * 2 ^ 47)%Z; [|subst z; congruence].
  assert (H1 : IZR (49 * 2 ^ 47) - 1 < IZR z).
  { apply (Rmult_lt_reg_r (2 * q)); [lra|]. rewrite Rmult_minus_distr_r, <- E49, <- Hz. lra. }
  assert (H2 : IZR z < IZR (49 * 2 ^ 47) + 1).
  { apply (Rmult_lt_reg_r (2 * q)); [lra|]. rewrite Rmult_plus_distr_r, <- E49, <- Hz. lra. }
  rewrite <- minus_IZR in H1. rewrite <- plus_IZR in H2. apply lt_IZR in H1, H2. lia.
Qed.

Lemma mscb_rounds_up f : log2_nearest f -> u_mscb f (2 ^ 48 - 1) = 49%Z /\ mscb (2 ^ 48 - 1) = 48%Z.
Proof.
  intros Hf. split; [|reflexivity]. unfold u_mscb. change (Z.lxor (2 ^ 48 - 1) (2 ^ 48 - 1 + 1)) with (2 ^ 49 - 1)%Z.
  rewrite (rounds_up f Hf). destruct (Rle_dec 0 49); [|lra]. apply Int_part_at. lra.
Qed.

(** A correctly rounded logarithm is within 2^-52 (it is within 2^-53). *)
Lemma double_near l : 1 <= l -> exists y, double y /\ Rabs (y - l) <= / 2 ^ 52 * l.
Proof.
  intros Hl. pose proof (base_Int_part l) as [B1 B2].
  assert (Hz : (1 <= Int_part l)%Z).
  { assert (0 < Int_part l)%Z; [|lia]. apply lt_IZR. lra. }
  set (z := Int_part l) in *. set (k := Z.log2 z). pose proof (Z.log2_nonneg z) as Hk. fold k in Hk.
  destruct (Z.log2_spec z ltac:(lia)) as [L1 L2]. fold k in L1, L2.
  assert (P1 : powerRZ 2 k <= l).
  { destruct (Z_of_nat_complete k Hk) as [n Hn]. rewrite Hn, <- pow_powerRZ, <- IZR_pow2, <- Hn. apply IZR_le in L1. lra. }
  assert (P2 : l < powerRZ 2 (k + 1)).
  { destruct (Z_of_nat_complete (k + 1) ltac:(lia)) as [n Hn]. rewrite Hn, <- pow_powerRZ, <- IZR_pow2, <- Hn.
    assert (H : (z + 1 <= 2 ^ (k + 1))%Z) by lia. apply IZR_le in H. rewrite plus_IZR in H. lra. }
  set (e := (k - 52)%Z). assert (He : 0 < powerRZ 2 e) by (apply powerRZ_lt; lra).
  assert (E52 : powerRZ 2 e * 2 ^ 52 = powerRZ 2 k).
  { rewrite pow_powerRZ, <- powerRZ_add by lra. f_equal. unfold e. lia. }
  assert (E53 : powerRZ 2 e * 2 ^ 53 = powerRZ 2 (k + 1)).
  { rewrite pow_powerRZ, <- powerRZ_add by lra. f_equal. unfold e. lia. }
  pose proof (base_Int_part (l / powerRZ 2 e)) as [C1 C2]. set (m := Int_part (l / powerRZ 2 e)) in *.
  assert (D1 : IZR m * powerRZ 2 e <= l) by (apply (Rmult_le_compat_r (powerRZ 2 e)) in C1; [|lra]; unfold Rdiv in C1; rewrite Rmult_assoc, Rinv_l in C1 by lra; lra).
  assert (D2 : l < (IZR m + 1) * powerRZ 2 e).
  { assert (C3 : l / powerRZ 2 e < IZR m + 1) by lra. apply (Rmult_lt_compat_r (powerRZ 2 e)) in C3; [|lra]. unfold Rdiv in C3. rewrite Rmult_assoc, Rinv_l in C3 by lra. lra. }
  assert (Hm0 : (0 <= m)%Z).
  { assert (0 < m + 1)%Z; [|lia]. apply lt_IZR. rewrite plus_IZR. apply (Rmult_lt_reg_r (powerRZ 2 e)); [lra|]. lra. }
  exists (IZR m * powerRZ 2 e). split.
  - exists m, e. split; [|reflexivity]. rewrite Z.abs_eq by lia. apply lt_IZR. change 53%Z with (Z.of_nat 53). rewrite IZR_pow2.
    apply (Rmult_lt_reg_r (powerRZ 2 e)); [lra|]. lra.
  - rewrite Rabs_left1 by lra. assert (H52 : 0 < 2 ^ 52) by (apply pow_lt; lra).
    apply (Rmult_le_reg_l (2 ^ 52)); [exact H52|]. rewrite <- Rmult_assoc, Rinv_r, Rmult_1_l by lra. nra.
Qed.

Lemma log2_at_least x : (2 <= x)%Z -> 1 <= Rlog2 (IZR x).
Proof.
  intros Hx. unfold Rlog2. pose proof ln2_pos. apply (Rmult_le_reg_r (ln 2)); [lra|]. unfold Rdiv. rewrite Rmult_assoc, Rinv_l by lra.
  apply IZR_le in Hx. destruct (Req_dec (IZR x) 2) as [->|]; [lra|]. assert (ln 2 < ln (IZR x)) by (apply ln_increasing; lra). lra.
Qed.

Lemma nearest_within f : log2_nearest f -> log2_within (/ 2 ^ 52) f.
Proof.
  intros Hf x Hx. destruct (Hf x Hx) as [_ Hn]. destruct (Z.eq_dec x 1) as [->|Hx1].
  - assert (E0 : Rlog2 1 = 0) by (unfold Rlog2; rewrite ln_1; unfold Rdiv; lra). rewrite E0 in *.
    assert (D0 : double 0) by (exists 0%Z, 0%Z; split; [lia|cbn; lra]). specialize (Hn 0 D0).
    rewrite (Rminus_0_r 0), Rabs_R0 in Hn. rewrite Rabs_R0, Rmult_0_r. exact Hn.
  - pose proof (log2_at_least x ltac:(lia)) as Hl. destruct (double_near _ Hl) as (y & Dy & Hy).
    rewrite (Rabs_right (Rlog2 (IZR x))) by lra. eapply Rle_trans; [apply (Hn y Dy)|exact Hy].
Qed.

Lemma mscb_below f t : log2_nearest f -> (0 <= t < 2 ^ 46 - 1)%Z -> u_mscb f t = mscb t.
Proof.
  intros Hf Ht. pose proof (mscb_nonneg t ltac:(lia)) as Hm. destruct (mscb_spec t ltac:(lia)) as [[q Hq] _].
  assert (Hm45 : (mscb t <= 45)%Z).
  { destruct (Z_le_gt_dec (mscb t) 45) as [|G]; [assumption|exfalso].
    assert (2 ^ 46 <= 2 ^ mscb t)%Z by (apply Z.pow_le_mono_r; lia). assert (0 < q)%Z by nia. nia. }
  assert (H52 : 1 < 2 ^ 52) by (apply Rlt_pow_R1; [lra|lia]).
  apply (mscb_within (/ 2 ^ 52) f t); [lia| |apply nearest_within; exact Hf|].
  - split; [left; apply Rinv_0_lt_compat; lra|]. apply Rinv_le_contravar; [lra|]. change (2 ^ 52) with (2 * (2 * 2 ^ 50)). pose proof (pow_R1_Rle 2 50 ltac:(lra)). lra.
  - apply (Rmult_lt_reg_r (2 ^ 52)); [lra|]. rewrite Rmult_assoc, Rinv_l by lra. rewrite Rmult_1_r, Rmult_1_l.
    rewrite <- mult_IZR. rewrite <- IZR_pow2. apply IZR_lt.
    assert (2 ^ (mscb t + 1) <= 2 ^ 46)%Z by (apply Z.pow_le_mono_r; lia). change (2 ^ Z.of_nat 52)%Z with 4503599627370496%Z. change (2 ^ 46)%Z with 70368744177664%Z in H. nia.
Qed.

(** ** log_sum_exp *)
Lemma u_lse v : v <> [] -> u_log_sum_exp v = Ok (ln (Rsum (map exp v))).
Proof. exact (h_log_sum_exp_ok v). Qed.
Lemma ctw_lse v : v <> [] -> ctw_logsumexp v = Ok (ln (Rsum (map exp v))).
Proof. exact (logsumexp_ok v). Qed.
Lemma lse_empty : u_log_sum_exp [] = Err ValueError /\ ctw_logsumexp [] = Err ValueError.
Proof. split; reflexivity. Qed.

(** ** argmax *)
Lemma positions_in values mx i : In i (positions values mx) <-> nth_error values i = Some mx.
Proof.
  unfold positions. rewrite filter_In, in_seq. split.
  - intros [_ H]. destruct (nth_error values i) as [x|]; [|discriminate]. destruct (Req_EM_T x mx); [congruence|discriminate].
  - intros H. rewrite H. split; [|destruct (Req_EM_T mx mx); congruence].
    assert (i < length values)%nat by (apply nth_error_Some; congruence). lia.
Qed.

Lemma argmax_ok values pick : values <> [] -> exists i x, u_argmax values pick = Ok i /\ nth_error values i = Some x /\ forall y, In y values -> y <= x.
Proof.
  intros Hv. unfold u_argmax. destruct (py_max_ok values Hv) as (m & -> & Hin & Hmax). cbn [bind].
  destruct (In_nth_error _ _ Hin) as [k Hk]. apply positions_in in Hk.
  assert (Hl : (0 < length (positions values m))%nat) by (destruct (positions values m); [destruct Hk|cbn; lia]).
  destruct (nth_error (positions values m) (pick mod length (positions values m))) as [i|] eqn:E.
  - exists i, m. split; [reflexivity|]. split; [|exact Hmax]. apply positions_in. eapply nth_error_In; exact E.
  - apply nth_error_None in E. pose proof (Nat.mod_upper_bound pick (length (positions values m)) ltac:(lia)). lia.
Qed.

Lemma argmax_any values i x : nth_error values i = Some x -> (forall y, In y values -> y <= x) -> exists pick, u_argmax values pick = Ok i.
Proof.
  intros Hi Hx. unfold u_argmax. assert (Hv : values <> []) by (intros ->; destruct i; discriminate).
  destruct (py_max_ok values Hv) as (m & -> & Hin & Hmax). cbn [bind].
  assert (m = x) as -> by (apply Rle_antisym; [apply Hx; exact Hin|apply Hmax; eapply nth_error_In; exact Hi]).
  apply positions_in in Hi. destruct (In_nth_error _ _ Hi) as [k Hk]. exists k.
  assert (k < length (positions values x))%nat by (apply nth_error_Some; congruence). rewrite Nat.mod_small by lia. now rewrite Hk.
Qed.

Lemma argmax_empty pick : u_argmax [] pick = Err ValueError.
Proof. reflexivity. Qed.

(** ** In terms of the bits that change *)
Lemma mscb_below_changes f t : log2_nearest f -> (0 <= t < 2 ^ 46 - 1)%Z -> changes_up_to t (u_mscb f t).
Proof. intros Hf Ht. rewrite (mscb_below f t Hf Ht). split; [apply mscb_nonneg; lia|apply mscb_spec; lia]. Qed.
Lemma mscb_within_changes u f t m : (0 <= t)%Z -> 0 <= u <= / 4 -> log2_within u f -> changes_up_to t m ->
  IZR (m + 1) * IZR (2 ^ (m + 1)) * u < 1 -> u_mscb f t = m.
Proof.
  intros Ht Hu Hf (Hm & D1 & D2) Hs. assert (E : m = mscb t).
  { destruct (mscb_spec t Ht) as [E1 E2]. pose proof (mscb_nonneg t Ht) as Hn.
    assert (G : forall a b, (0 <= a)%Z -> (2 ^ b | t + 1)%Z -> ~ (2 ^ (a + 1) | t + 1)%Z -> (b <= a)%Z).
    { intros a b Ha Db Na. destruct (Z_le_gt_dec b a) as [|Gt]; [assumption|exfalso]. apply Na.
      apply Z.divide_trans with (2 ^ b)%Z; [|exact Db]. exists (2 ^ (b - (a + 1)))%Z. rewrite <- Z.pow_add_r by lia. f_equal. lia. }
    pose proof (G m (mscb t) Hm E1 D2). pose proof (G (mscb t) m Hn D1 E2). lia. }
  subst m. exact (mscb_within u f t Ht Hu Hf Hs).
Qed.
Lemma mscb_wrong f : log2_nearest f -> u_mscb f (2 ^ 48 - 1) = 49%Z /\ changes_up_to (2 ^ 48 - 1) 48.
Proof.
  intros Hf. split; [exact (proj1 (mscb_rounds_up f Hf))|]. pose proof (mscb_spec (2 ^ 48 - 1) ltac:(lia)) as S.
  rewrite (proj2 (mscb_rounds_up f Hf)) in S. split; [lia|exact S].
Qed.

Lemma both_lse v : v <> [] -> u_log_sum_exp v = Ok (ln (Rsum (map exp v))) /\ ctw_logsumexp v = Ok (ln (Rsum (map exp v))).
Proof. intros H. split; [now apply u_lse|now apply ctw_lse]. Qed.
