(** Facts about the binary time helpers. *)
From Verif Require Import Model.Helpers.
Open Scope Z_scope.

Lemma land_ones_mod t d : 0 <= d -> Z.land t (Z.shiftl 1 d - 1) = t mod 2 ^ d.
Proof.
  intros Hd. rewrite Z.shiftl_1_l, <- Z.land_ones by exact Hd. f_equal. rewrite Z.ones_equiv. lia.
Qed.

Lemma boundary_mod t d : 0 <= d -> binary_boundary t d = t - t mod 2 ^ d.
Proof. intros Hd. unfold binary_boundary. rewrite land_ones_mod by exact Hd. reflexivity. Qed.

Lemma boundary_div t d : 0 <= d -> binary_boundary t d = 2 ^ d * (t / 2 ^ d).
Proof.
  intros Hd. rewrite boundary_mod by exact Hd.
  pose proof (Z.div_mod t (2 ^ d) ltac:(pose proof (Z.pow_pos_nonneg 2 d); lia)). lia.
Qed.

(** The greatest multiple of 2^d not exceeding t. *)
Lemma boundary_spec t d : 0 <= d ->
  (2 ^ d | binary_boundary t d) /\ binary_boundary t d <= t /\
  forall b, (2 ^ d | b) -> b <= t -> b <= binary_boundary t d.
Proof.
  intros Hd. assert (Hp : 0 < 2 ^ d) by (apply Z.pow_pos_nonneg; lia).
  rewrite boundary_div by exact Hd. split; [|split].
  - apply Z.divide_factor_l.
  - apply Z.mul_div_le, Hp.
  - intros b (q & ->) Hb. rewrite Z.mul_comm. apply Z.mul_le_mono_nonneg_l; [lia|].
    apply Z.div_le_lower_bound; lia.
Qed.

Lemma boundary_next t d : 0 <= d -> t < binary_boundary t d + 2 ^ d.
Proof.
  intros Hd. assert (Hp : 0 < 2 ^ d) by (apply Z.pow_pos_nonneg; lia).
  rewrite boundary_mod by exact Hd. pose proof (Z.mod_pos_bound t (2 ^ d) Hp). lia.
Qed.

Lemma start_spec t d : 0 <= d -> at_partition_start t d = true <-> binary_boundary t d = t.
Proof.
  intros Hd. unfold at_partition_start, binary_boundary. rewrite Z.eqb_eq. lia.
Qed.

(** mscb by cases on the last bit. *)
Lemma mscb_even t : 0 <= t -> mscb (2 * t) = 0.
Proof.
  intros Ht. unfold mscb. replace (Z.lxor (2 * t) (2 * t + 1)) with 1.
  - reflexivity.
  - apply Z.bits_inj'. intros n Hn. rewrite Z.lxor_spec. destruct (Z.eq_dec n 0) as [->|Hn0].
    + rewrite Z.testbit_even_0, Z.testbit_odd_0. reflexivity.
    + replace n with (Z.succ (n - 1)) by lia.
      rewrite Z.testbit_even_succ, Z.testbit_odd_succ by lia.
      rewrite xorb_nilpotent. change 1 with (2 * 0 + 1). rewrite Z.testbit_odd_succ, Z.bits_0 by lia. reflexivity.
Qed.

Lemma bit_length_odd x : 0 <= x -> bit_length (2 * x + 1) = bit_length x + 1.
Proof.
  intros Hx. unfold bit_length. destruct (Z.eqb_spec (2 * x + 1) 0); [lia|].
  rewrite Z.abs_eq by lia. destruct (Z.eqb_spec x 0) as [->|Hx0]; [reflexivity|].
  rewrite Z.abs_eq by lia. rewrite Z.log2_succ_double by lia. lia.
Qed.

Lemma lxor_succ_pos t : 0 <= t -> 0 < Z.lxor t (t + 1).
Proof.
  intros Ht. assert (0 <= Z.lxor t (t + 1)) by (apply <- Z.lxor_nonneg; split; lia).
  assert (Z.lxor t (t + 1) <> 0); [|lia]. intros E. apply Z.lxor_eq in E. lia.
Qed.

Lemma mscb_odd t : 0 <= t -> mscb (2 * t + 1) = mscb t + 1.
Proof.
  intros Ht. unfold mscb. replace (Z.lxor (2 * t + 1) (2 * t + 1 + 1)) with (2 * Z.lxor t (t + 1) + 1).
  - rewrite bit_length_odd by (pose proof (lxor_succ_pos t Ht); lia). lia.
  - replace (2 * t + 1 + 1) with (2 * (t + 1)) by lia.
    apply Z.bits_inj'. intros n Hn. rewrite Z.lxor_spec. destruct (Z.eq_dec n 0) as [->|Hn0].
    + rewrite Z.testbit_even_0, !Z.testbit_odd_0. reflexivity.
    + replace n with (Z.succ (n - 1)) by lia.
      rewrite Z.testbit_even_succ, !Z.testbit_odd_succ by lia. rewrite Z.lxor_spec. reflexivity.
Qed.

Lemma mscb_nonneg t : 0 <= t -> 0 <= mscb t.
Proof.
  intros Ht. pose proof (lxor_succ_pos t Ht) as Hx. unfold mscb, bit_length.
  destruct (Z.eqb_spec (Z.lxor t (t + 1)) 0); [lia|].
  pose proof (Z.log2_nonneg (Z.abs (Z.lxor t (t + 1)))). lia.
Qed.

(** mscb t is the exponent of the largest power of two dividing t+1. *)
Lemma mscb_spec : forall t, 0 <= t -> (2 ^ mscb t | t + 1) /\ ~ (2 ^ (mscb t + 1) | t + 1).
Proof.
  intros t0 Ht0. refine (Z_lt_induction (fun t => 0 <= t -> (2 ^ mscb t | t + 1) /\ ~ (2 ^ (mscb t + 1) | t + 1)) _ t0 Ht0 Ht0). clear.
  intros t IH Ht. destruct (Z.Even_or_Odd t) as [[k ->]|[k ->]].
  - rewrite mscb_even by lia. split; [exists (2 * k + 1); lia|]. intros [q Hq]. change (2 ^ (0 + 1)) with 2 in Hq. lia.
  - rewrite mscb_odd by lia. pose proof (mscb_nonneg k ltac:(lia)) as Hm.
    destruct (IH k) as [H1 H2]; [lia|lia|]. replace (2 * k + 1 + 1) with (2 * (k + 1)) by lia.
    rewrite !Z.pow_add_r, Z.pow_1_r in * by lia. split.
    + destruct H1 as [q Hq]. exists q. rewrite Hq. ring.
    + intros [q Hq]. apply H2. exists q. nia.
Qed.

Lemma mscb_bits t : 0 <= t -> forall k, mscb t < k -> Z.testbit t k = Z.testbit (t + 1) k.
Proof.
  intros Ht k Hk. pose proof (mscb_nonneg t Ht). pose proof (lxor_succ_pos t Ht) as Hx.
  assert (E : Z.testbit (Z.lxor t (t + 1)) k = false).
  { apply Z.bits_above_log2; [lia|]. unfold mscb, bit_length in Hk.
    destruct (Z.eqb_spec (Z.lxor t (t + 1)) 0); [lia|]. rewrite Z.abs_eq in Hk by lia. lia. }
  rewrite Z.lxor_spec in E. apply xorb_eq in E. exact E.
Qed.

Lemma mscb_changes t : 0 <= t -> Z.testbit t (mscb t) <> Z.testbit (t + 1) (mscb t).
Proof.
  intros Ht E. pose proof (lxor_succ_pos t Ht) as Hx.
  assert (E2 : Z.testbit (Z.lxor t (t + 1)) (Z.log2 (Z.lxor t (t + 1))) = true) by (apply Z.bit_log2; lia).
  rewrite Z.lxor_spec in E2. unfold mscb, bit_length in E.
  destruct (Z.eqb_spec (Z.lxor t (t + 1)) 0); [lia|]. rewrite Z.abs_eq in E by lia.
  replace (Z.log2 (Z.lxor t (t + 1)) + 1 - 1) with (Z.log2 (Z.lxor t (t + 1))) in E by lia.
  rewrite E, xorb_nilpotent in E2. discriminate.
Qed.

Lemma start_mscb t d : 0 <= t -> 0 <= d -> at_partition_start (t + 1) d = true <-> d <= mscb t.
Proof.
  intros Ht Hd. unfold at_partition_start. rewrite land_ones_mod, Z.eqb_eq by exact Hd.
  assert (Hp : 0 < 2 ^ d) by (apply Z.pow_pos_nonneg; lia). rewrite Z.mod_divide by lia.
  destruct (mscb_spec t Ht) as [H1 H2]. pose proof (mscb_nonneg t Ht). split; intros H3.
  - destruct (Z.le_gt_cases d (mscb t)) as [|Hgt]; [assumption|exfalso]. apply H2.
    apply Z.divide_trans with (2 ^ d); [|exact H3]. exists (2 ^ (d - (mscb t + 1))).
    rewrite <- Z.pow_add_r by lia. f_equal. lia.
  - apply Z.divide_trans with (2 ^ mscb t); [|exact H1]. exists (2 ^ (mscb t - d)).
    rewrite <- Z.pow_add_r by lia. f_equal. lia.
Qed.

Lemma mscb_highest t : 0 <= t ->
  Z.testbit t (mscb t) <> Z.testbit (t + 1) (mscb t) /\
  forall k, mscb t < k -> Z.testbit t k = Z.testbit (t + 1) k.
Proof. intros Ht. split; [apply mscb_changes, Ht|apply mscb_bits, Ht]. Qed.
