(** Elementary logarithm inequalities for the KT redundancy bound. *)
From Coq Require Import Reals Lra Lia.
Open Scope R_scope.

Lemma ln_div x y : 0 < x -> 0 < y -> ln (x / y) = ln x - ln y.
Proof.
  intros Hx Hy. unfold Rdiv. rewrite ln_mult by (try apply Rinv_0_lt_compat; assumption).
  rewrite ln_Rinv by assumption. reflexivity.
Qed.

Lemma nonneg_by_derivative (f f' : R -> R) a b :
  a <= b -> 0 <= f a ->
  (forall c, a <= c <= b -> derivable_pt_lim f c (f' c)) ->
  (forall c, a <= c <= b -> 0 <= f' c) -> 0 <= f b.
Proof.
  intros Hab Ha Hd Hp. destruct (Req_dec a b) as [<-|Hne]; [exact Ha|].
  destruct (MVT_cor2 f f' a b) as (c & Hc & Hin); [lra|exact Hd|].
  assert (0 <= f' c) by (apply Hp; lra).
  assert (0 <= f' c * (b - a)) by (apply Rmult_le_pos; lra). lra.
Qed.

Lemma derivable_lin a b c : derivable_pt_lim (fun v => a + b * v) c b.
Proof.
  assert (H: derivable_pt_lim (fct_cte a + mult_real_fct b id)%F c (0 + b * 1)).
  { apply derivable_pt_lim_plus; [apply derivable_pt_lim_const|].
    apply derivable_pt_lim_scal. apply derivable_pt_lim_id. }
  replace (0 + b * 1) with b in H by lra. exact H.
Qed.

Lemma ln_ge_pade y : 1 <= y -> 2 * (y - 1) / (y + 1) <= ln y.
Proof.
  intros Hy.
  set (f := fun y => ln y - (-2 + 2 * y) / (1 + 1 * y)).
  set (f' := fun y => / y - (2 * (1 + 1 * y) - 1 * (-2 + 2 * y)) / Rsqr (1 + 1 * y)).
  assert (0 <= f y).
  { apply (nonneg_by_derivative f f' 1 y Hy).
    - unfold f. rewrite ln_1. lra.
    - intros c Hc. unfold f, f'.
      apply (derivable_pt_lim_minus ln (fun y => (-2 + 2 * y) / (1 + 1 * y))).
      + apply derivable_pt_lim_ln. lra.
      + apply (derivable_pt_lim_div (fun y => -2 + 2 * y) (fun y => 1 + 1 * y) c 2 1);
          [apply derivable_lin|apply derivable_lin|lra].
    - intros c Hc. unfold f', Rsqr.
      replace (/ c - (2 * (1 + 1 * c) - 1 * (-2 + 2 * c)) / ((1 + 1 * c) * (1 + 1 * c)))
        with ((c - 1) * (c - 1) / (c * ((c + 1) * (c + 1)))) by (field; lra).
      apply Rmult_le_pos; [apply Rle_0_sqr|]. left. apply Rinv_0_lt_compat.
      apply Rmult_lt_0_compat; [lra|]. apply Rmult_lt_0_compat; lra. }
  unfold f in H. replace (2 * (y - 1) / (y + 1)) with ((-2 + 2 * y) / (1 + 1 * y)) by (field; lra). lra.
Qed.

(** (n + 1/2) ln (1 + 1/n) >= 1 *)
Lemma ln_succ_lower x : 0 < x -> 1 <= (x + / 2) * (ln (x + 1) - ln x).
Proof.
  intros Hx.
  assert (H1: 1 <= (x + 1) / x). { apply Rmult_le_reg_r with x; [exact Hx|]. unfold Rdiv. rewrite Rmult_assoc, Rinv_l by lra. lra. }
  pose proof (ln_ge_pade ((x + 1) / x) H1) as H.
  rewrite ln_div in H by lra.
  replace (2 * ((x + 1) / x - 1) / ((x + 1) / x + 1)) with (/ (x + / 2)) in H by (field; lra).
  apply Rmult_le_compat_l with (r := x + / 2) in H; [|lra].
  rewrite Rinv_r in H by lra. exact H.
Qed.

Lemma derivable_ln_lin a b c : 0 < a + b * c -> derivable_pt_lim (fun v => ln (a + b * v)) c (b / (a + b * c)).
Proof.
  intros H. unfold Rdiv. rewrite Rmult_comm.
  apply (derivable_pt_lim_comp (fun v => a + b * v) ln); [apply derivable_lin|].
  apply derivable_pt_lim_ln. exact H.
Qed.

Lemma F_nonneg v : 0 <= v < 1 -> 0 <= v + (1 + -1 * v) * ln (1 + -1 * v) + v * ln (1 + (- / 2) * v).
Proof.
  intros [H0 H1].
  set (F := fun v => (v + (1 + -1 * v) * ln (1 + -1 * v)) + v * ln (1 + (- / 2) * v)).
  set (F' := fun v => (1 + (-1 * ln (1 + -1 * v) + (1 + -1 * v) * (-1 / (1 + -1 * v)))) +
                      (1 * ln (1 + (- / 2) * v) + v * ((- / 2) / (1 + (- / 2) * v)))).
  change (0 <= F v). apply (nonneg_by_derivative F F' 0 v H0).
  - unfold F. replace (1 + -1 * 0) with 1 by lra. replace (1 + - / 2 * 0) with 1 by lra.
    rewrite ln_1. lra.
  - intros c Hc. unfold F, F'.
    apply (derivable_pt_lim_plus (fun v => v + (1 + -1 * v) * ln (1 + -1 * v)) (fun v => v * ln (1 + - / 2 * v))).
    + apply (derivable_pt_lim_plus id (fun v => (1 + -1 * v) * ln (1 + -1 * v))); [apply derivable_pt_lim_id|].
      apply (derivable_pt_lim_mult (fun v => 1 + -1 * v) (fun v => ln (1 + -1 * v))).
      * apply derivable_lin.
      * apply derivable_ln_lin. lra.
    + apply (derivable_pt_lim_mult id (fun v => ln (1 + - / 2 * v))).
      * apply derivable_pt_lim_id.
      * apply derivable_ln_lin. lra.
  - intros c Hc. unfold F'.
    set (z := (1 + - / 2 * c) / (1 + -1 * c)).
    assert (Hz: 1 <= z). { unfold z. apply Rmult_le_reg_r with (1 + -1 * c); [lra|]. unfold Rdiv. rewrite Rmult_assoc, Rinv_l by lra. lra. }
    pose proof (ln_ge_pade z Hz) as Hp. unfold z in Hp. rewrite ln_div in Hp by lra.
    replace (1 + (-1 * ln (1 + -1 * c) + (1 + -1 * c) * (-1 / (1 + -1 * c))) +
             (1 * ln (1 + - / 2 * c) + c * (- / 2 / (1 + - / 2 * c))))
      with ((ln (1 + - / 2 * c) - ln (1 + -1 * c)) - c / (2 - c)) by (field; lra).
    replace (2 * ((1 + - / 2 * c) / (1 + -1 * c) - 1) / ((1 + - / 2 * c) / (1 + -1 * c) + 1))
      with (2 * c / (4 - 3 * c)) in Hp.
    2:{ field. repeat split; lra. }
    assert (c / (2 - c) <= 2 * c / (4 - 3 * c)).
    { apply Rmult_le_reg_r with ((2 - c) * (4 - 3 * c)); [apply Rmult_lt_0_compat; lra|].
      replace (c / (2 - c) * ((2 - c) * (4 - 3 * c))) with (c * (4 - 3 * c)) by (field; lra).
      replace (2 * c / (4 - 3 * c) * ((2 - c) * (4 - 3 * c))) with (2 * c * (2 - c)) by (field; lra).
      assert (0 <= c * c) by (apply Rle_0_sqr). lra. }
    lra.
Qed.

(** (x+1) ln (x+1) - x ln x - ln (x + 1/2) <= 1 *)
Lemma ln_succ_upper x : 0 < x -> (x + 1) * ln (x + 1) <= 1 + x * ln x + ln (x + / 2).
Proof.
  intros Hx. set (v := / (x + 1)).
  assert (Hv: 0 < v < 1).
  { unfold v. split; [apply Rinv_0_lt_compat; lra|].
    rewrite <- Rinv_1. apply Rinv_lt_contravar; lra. }
  pose proof (F_nonneg v ltac:(lra)) as H.
  replace (1 + -1 * v) with (x / (x + 1)) in H by (unfold v; field; lra).
  replace (1 + - / 2 * v) with ((x + / 2) / (x + 1)) in H by (unfold v; field; lra).
  rewrite !ln_div in H by lra.
  apply Rmult_le_compat_l with (r := x + 1) in H; [|lra].
  rewrite Rmult_0_r in H. unfold v in H.
  replace ((x + 1) * (/ (x + 1) + x / (x + 1) * (ln x - ln (x + 1)) + / (x + 1) * (ln (x + / 2) - ln (x + 1))))
    with (1 + x * (ln x - ln (x + 1)) + (ln (x + / 2) - ln (x + 1))) in H by (field; lra).
  lra.
Qed.
