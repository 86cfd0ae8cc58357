(** Rounding errors of model.logsumexp2 and of one KT estimate. *)
From Coq Require Import Lra Lia.
From Verif Require Import Spec.FloatsSpec.
From Verif Require Import Proofs.RealFacts Proofs.KTRedundancy.
Open Scope R_scope.

(** with exact arithmetic these are the functions of Model/CTW.v *)
Lemma exact_logsumexp2 a b : fp_logsumexp2 exact a b = logsumexp2 a b.
Proof. reflexivity. Qed.
Lemma exact_update : fknode_update exact = knode_update.
Proof. reflexivity. Qed.
Lemma exact_log_predict : fknode_log_predict exact = knode_log_predict.
Proof. reflexivity. Qed.
Lemma exact_model : FCTWKT_model exact = CTWKT_model.
Proof. reflexivity. Qed.

Lemma abs_le x d : Rabs x <= d -> - d <= x <= d.
Proof. unfold Rabs. destruct (Rcase_abs x); lra. Qed.

Definition outcome {A B} (r : result (A * B)) : result B :=
  match r with Ok (_, x) => Ok x | Err e => Err e end.

(** Whatever the rounding, updating returns the very number that predicting returns. *)
Lemma predict_is_update F : forall ctx n a w,
  outcome (fknode_log_predict F ctx n a) = outcome (fknode_update F ctx n a w).
Proof.
  induction ctx as [|c ctx IH]; intros [c0 c1 blp clp lp ch0 ch1] a w; cbn [fknode_update fknode_log_predict];
    (destruct (bit_index a) as [b|e]; [cbn [bind]|reflexivity]);
    (destruct (fp_div F (if b then c1 else c0) (f_add F c0 c1)) as [q|e]; [cbn [bind]|reflexivity]);
    (destruct (fp_log F q) as [l|e]; [cbn [bind]|reflexivity]).
  - reflexivity.
  - destruct (bit_index c) as [i|e]; [cbn [bind]|reflexivity].
    specialize (IH (match (if i then ch1 else ch0) with Some x => x | None => new_knode end) a w).
    destruct (fknode_log_predict F ctx _ a) as [[x r]|e], (fknode_update F ctx _ a w) as [[x' r']|e'];
      cbn [outcome] in IH; try discriminate; injection IH as ->; reflexivity.
Qed.

Lemma model_predict_is_update F s a h w :
  m_logp (FCTWKT_model F) s a h = outcome (m_update (FCTWKT_model F) s a h w).
Proof.
  unfold FCTWKT_model, m_logp, m_update, fctwkt_log_predict, fctwkt_update.
  pose proof (predict_is_update F (rev (mkcontext (ck_depth s) h)) (ck_tree s) a w) as H.
  destruct (fknode_log_predict F _ _ a) as [[x r]|e], (fknode_update F _ _ a w) as [[x' r']|e'];
    cbn [outcome bind] in *; congruence.
Qed.

(** ** logsumexp2 *)

Lemma ln_lip x y d : 0 < d -> d <= x -> d <= y -> Rabs (ln x - ln y) <= Rabs (x - y) / d.
Proof.
  assert (H : forall x y, 0 < d -> d <= x -> d <= y -> ln x - ln y <= Rabs (x - y) / d).
  { clear. intros x y Hd Hx Hy. replace (ln x - ln y) with (ln (x / y)) by (unfold Rdiv; rewrite ln_mult, ln_Rinv by (try apply Rinv_0_lt_compat; lra); lra).
    assert (Hxy : 0 < x / y) by (apply Rdiv_lt_0_compat; lra).
    pose proof (exp_ineq1_le (ln (x / y))) as E. rewrite exp_ln in E by exact Hxy.
    apply Rle_trans with (x / y - 1); [lra|]. replace (x / y - 1) with ((x - y) / y) by (field; lra).
    unfold Rdiv. apply Rle_trans with (Rabs (x - y) * / y).
    - apply Rmult_le_compat_r; [left; apply Rinv_0_lt_compat; lra|apply Rle_abs].
    - apply Rmult_le_compat_l; [apply Rabs_pos|]. apply Rinv_le_contravar; lra. }
  intros Hd Hx Hy. apply Rabs_le. split; [|apply H; assumption].
  pose proof (H y x Hd Hy Hx) as H1. rewrite Rabs_minus_sym in H1. lra.
Qed.

Lemma lse2_mono a b a' b' d : a <= a' + d -> b <= b' + d -> logsumexp2 a b <= logsumexp2 a' b' + d.
Proof.
  intros Ha Hb. rewrite !logsumexp2_spec. replace (ln (exp a' + exp b') + d) with (ln (exp (a' + d) + exp (b' + d))).
  - pose proof (exp_pos a). pose proof (exp_pos b). apply ln_le; [lra|].
    apply Rplus_le_compat; apply exp_le_mono; assumption.
  - rewrite !exp_plus, <- Rmult_plus_distr_r. pose proof (exp_pos a'). pose proof (exp_pos b').
    rewrite ln_mult, ln_exp; [reflexivity|lra|apply exp_pos].
Qed.

Lemma lse2_lip a b a' b' d : Rabs (a - a') <= d -> Rabs (b - b') <= d -> Rabs (logsumexp2 a b - logsumexp2 a' b') <= d.
Proof.
  intros Ha Hb. apply abs_le in Ha, Hb.
  pose proof (lse2_mono a b a' b' d ltac:(lra) ltac:(lra)). pose proof (lse2_mono a' b' a b d ltac:(lra) ltac:(lra)).
  apply Rabs_le. lra.
Qed.

Lemma lse2_range a b m : Rabs a <= m -> Rabs b <= m -> - m <= logsumexp2 a b <= m + ln 2.
Proof.
  intros Ha Hb. apply abs_le in Ha, Hb. rewrite logsumexp2_spec. pose proof (exp_pos a). pose proof (exp_pos b). split.
  - rewrite <- (ln_exp (- m)). apply ln_le; [apply exp_pos|]. pose proof (exp_le_mono (- m) a ltac:(lra)). lra.
  - replace (m + ln 2) with (ln (exp m * 2)) by (rewrite ln_mult, ln_exp; [reflexivity|apply exp_pos|lra]).
    apply ln_le; [lra|]. pose proof (exp_le_mono a m ltac:(lra)). pose proof (exp_le_mono b m ltac:(lra)). lra.
Qed.

Lemma ln2_bounds : 0 < ln 2 <= 1.
Proof.
  split; [rewrite <- ln_1; apply ln_increasing; lra|].
  pose proof (exp_ineq1_le 1). rewrite <- (ln_exp 1). apply ln_le; lra.
Qed.

(** a relative error in the exponent of a decaying exponential *)
Lemma exp_rel x e u : 0 <= u <= / 2 -> x <= 0 -> Rabs (e - x) <= u * Rabs x -> Rabs (exp e - exp x) <= u.
Proof.
  intros Hu Hx He. rewrite (Rabs_left1 x Hx) in He. apply abs_le in He.
  assert (Hb : forall t, 0 <= t -> t * exp (- (t / 2)) <= 1).
  { intros t Ht. pose proof (exp_ineq1_le (t / 4)) as E. pose proof (exp_pos (t / 4)).
    assert (Q : t <= exp (t / 2)).
    { replace (t / 2) with (t / 4 + t / 4) by lra. rewrite exp_plus.
      assert (0 <= (1 - t / 4) * (1 - t / 4)) by apply Rle_0_sqr.
      assert ((1 + t / 4) * (1 + t / 4) <= exp (t / 4) * exp (t / 4)) by (apply Rmult_le_compat; lra). lra. }
    rewrite exp_Ropp. pose proof (exp_pos (t / 2)). apply Rmult_le_reg_r with (exp (t / 2)); [assumption|].
    rewrite Rmult_assoc, Rinv_l by lra. lra. }
  specialize (Hb (- x) ltac:(lra)).
  apply Rabs_le. split.
  - assert (E1 : exp (x + u * x) <= exp e) by (apply exp_le_mono; nra).
    rewrite exp_plus in E1. pose proof (exp_ineq1_le (u * x)) as E2. pose proof (exp_pos x).
    assert (E3 : exp x <= exp (- (- x / 2))) by (apply exp_le_mono; lra).
    assert (- u <= exp x * (u * x)); [|nra].
    assert (- x * exp x <= 1) by nra. nra.
  - assert (E1 : exp e <= exp (x - u * x)) by (apply exp_le_mono; nra).
    assert (E3 : exp (x - u * x) <= exp (- (- x / 2))) by (apply exp_le_mono; nra).
    assert (E4 : exp x = exp (x - u * x) * exp (u * x)) by (rewrite <- exp_plus; f_equal; lra).
    pose proof (exp_ineq1_le (u * x)) as E2. pose proof (exp_pos (x - u * x)).
    assert (exp (x - u * x) * (- x) <= 1) by nra.
    assert (exp (x - u * x) * (1 - exp (u * x)) <= exp (x - u * x) * (- (u * x))) by nra. nra.
Qed.

Section rounding.
  Variables (F : floats) (u big : R) (max : nat).
  Hypothesis HF : accurate F u big max.
  Hypothesis Hu : 0 <= u <= / 64.

  Lemma add_err x y m : Rabs (x + y) <= m -> m <= big -> Rabs (f_add F x y - (x + y)) <= u * m.
  Proof. intros H Hm. eapply Rle_trans; [apply (acc_add _ _ _ _ HF); lra|]. apply Rmult_le_compat_l; lra. Qed.
  Lemma sub_err x y m : Rabs (x - y) <= m -> m <= big -> Rabs (f_sub F x y - (x - y)) <= u * m.
  Proof. intros H Hm. eapply Rle_trans; [apply (acc_sub _ _ _ _ HF); lra|]. apply Rmult_le_compat_l; lra. Qed.

  Lemma lse2_half a b B : b <= a -> Rabs a <= B -> Rabs b <= B -> 2 * B + 4 <= big ->
    Rabs (f_add F a (f_log F (f_add F 1 (f_exp F (f_sub F b a)))) - (a + ln (1 + exp (b - a)))) <= u * (B + 11).
  Proof.
    intros Hab Ha Hb Hbig. apply abs_le in Ha, Hb.
    assert (HB : 0 <= B) by lra.
    set (x := b - a). set (e := f_sub F b a).
    assert (He : Rabs (e - x) <= u * Rabs x).
    { apply (acc_sub _ _ _ _ HF). apply Rabs_le. lra. }
    assert (Hx : x <= 0) by (unfold x; lra).
    assert (He0 : e <= 0).
    { rewrite (Rabs_left1 x Hx) in He. apply abs_le in He. nra. }
    destruct (acc_exp _ _ _ _ HF e He0) as [Hw0 Hw]. set (w := f_exp F e) in *.
    pose proof (exp_rel x e u ltac:(lra) Hx He) as Hex.
    pose proof (exp_pos x) as Px. assert (Lx : exp x <= 1) by (rewrite <- exp_0; apply exp_le_mono; exact Hx).
    apply abs_le in Hw, Hex.
    set (s := f_add F 1 w).
    assert (Hs : Rabs (s - (1 + w)) <= u * 3) by (apply add_err; [apply Rabs_le; lra|lra]).
    apply abs_le in Hs.
    assert (Hs1 : Rabs (s - (1 + exp x)) <= 5 * u) by (apply Rabs_le; lra).
    assert (Hl1 : Rabs (ln s - ln (1 + exp x)) <= 6 * u).
    { eapply Rle_trans; [apply (ln_lip _ _ (5 / 6)); [lra| |]|].
      - apply abs_le in Hs1. lra.
      - lra.
      - apply Rmult_le_reg_r with (5 / 6); [lra|]. unfold Rdiv at 1. rewrite Rmult_assoc, Rinv_l by lra. lra. }
    assert (Hln : 0 <= ln (1 + exp x) <= 1).
    { split; [rewrite <- ln_1; apply ln_le; lra|]. pose proof ln2_bounds. apply Rle_trans with (ln 2); [apply ln_le; lra|lra]. }
    apply abs_le in Hl1.
    assert (Hl : Rabs (f_log F s - ln s) <= u * (1 + Rabs (ln s))).
    { apply (acc_log _ _ _ _ HF). apply abs_le in Hs1. lra. }
    assert (Hls : Rabs (ln s) <= 9 / 8) by (apply Rabs_le; lra).
    assert (Hl2 : Rabs (f_log F s - ln s) <= u * 3) by (eapply Rle_trans; [exact Hl|]; apply Rmult_le_compat_l; lra).
    apply abs_le in Hl2. set (l := f_log F s) in *.
    assert (Hf : Rabs (f_add F a l - (a + l)) <= u * (B + 1 + / 2)).
    { apply add_err; [apply Rabs_le; lra|lra]. }
    apply abs_le in Hf. apply Rabs_le. lra.
  Qed.

  Lemma lse2_err a b B : Rabs a <= B -> Rabs b <= B -> 2 * B + 4 <= big ->
    Rabs (fp_logsumexp2 F a b - logsumexp2 a b) <= u * (B + 11).
  Proof.
    intros Ha Hb Hbig. unfold fp_logsumexp2, logsumexp2. destruct (Rlt_dec a b).
    - eapply Rle_trans; [apply (lse2_half b a B); try assumption; lra|]. apply Rmult_le_compat_l; lra.
    - eapply Rle_trans; [apply (lse2_half a b B); try assumption; lra|]. apply Rmult_le_compat_l; lra.
  Qed.
End rounding.

Lemma lse2_error F u big max : accurate F u big max -> 0 <= u <= / 64 ->
  forall a b B, Rabs a <= B -> Rabs b <= B -> 2 * B + 4 <= big ->
  Rabs (fp_logsumexp2 F a b - ln (exp a + exp b)) <= u * (B + 11).
Proof. intros HF Hu a b B. rewrite <- logsumexp2_spec. apply (lse2_err F u big max HF Hu). Qed.
