(** How far rounding errors take Averager from the exact average. *)
From Coq Require Import Lra Lia.
From Verif Require Import Spec.FloatsAvgSpec.
From Verif Require Import Proofs.RealFacts Proofs.PyFacts Proofs.KTRedundancy Proofs.LnBounds Proofs.AveragerFacts Proofs.FloatsFacts.
Open Scope R_scope.

Lemma exact_lse v : fp_logsumexp exact v = logsumexp v.
Proof. reflexivity. Qed.
Lemma exact_avg {S} (M : model S) : FAVG_model exact M = AVG_model M.
Proof. reflexivity. Qed.
Lemma exact_avg_init {S} (ms : list (Z * S)) : favg_init exact ms = avg_init ms.
Proof. reflexivity. Qed.

(** ** sums *)
Lemma fsum_app F l1 l2 : fp_sum F (l1 ++ l2) = fold_left (f_add F) l2 (fp_sum F l1).
Proof. apply fold_left_app. Qed.

Lemma lse_le l l' d : l <> [] -> Forall2 (fun x y => x <= y + d) l l' ->
  ln (Rsum (map exp l)) <= ln (Rsum (map exp l')) + d.
Proof.
  intros Hne HF. assert (Hne' : l' <> []) by (inversion HF; subst; congruence).
  rewrite <- (ln_exp d). rewrite <- ln_mult; [|apply exp_sum_pos; assumption|apply exp_pos].
  apply ln_le; [apply exp_sum_pos; assumption|]. clear Hne Hne'. induction HF as [|x y l l' H HF IH].
  - unfold Rsum; cbn. lra.
  - cbn [map]. rewrite !Rsum_cons. pose proof (exp_le_mono _ _ H) as E. rewrite exp_plus in E. lra.
Qed.

Lemma lse_lip l l' d : l <> [] -> Forall2 (fun x y => Rabs (x - y) <= d) l l' ->
  Rabs (ln (Rsum (map exp l)) - ln (Rsum (map exp l'))) <= d.
Proof.
  intros Hne HF. assert (Hne' : l' <> []) by (inversion HF; subst; congruence).
  assert (H1 : Forall2 (fun x y => x <= y + d) l l').
  { clear Hne Hne'. induction HF as [|x y l l' H HF IH]; constructor; [|exact IH]. apply abs_le in H. lra. }
  assert (H2 : Forall2 (fun x y => x <= y + d) l' l).
  { clear Hne Hne' H1. induction HF as [|x y l l' H HF IH]; constructor; [|exact IH]. apply abs_le in H. lra. }
  pose proof (lse_le _ _ _ Hne H1). pose proof (lse_le _ _ _ Hne' H2). apply Rabs_le. lra.
Qed.

Section lse.
  Variables (F : floats) (u big : R) (max : nat).
  Hypothesis HF : accurate F u big max.
  Hypothesis Hu : 0 <= u <= / 64.

  (** a sum of [d] numbers, each close to one in [0, 1] *)
  Lemma sum_err d : (0 < d)%nat -> 2 * INR d <= big -> u * (2 * INR d + 2) <= 1 ->
    forall l l', (length l <= d)%nat -> Forall2 (fun x y => 0 <= y <= 1 /\ Rabs (x - y) <= 2 * u) l l' ->
    Rabs (fp_sum F l - Rsum l') <= INR (length l) * (u * (2 * INR d + 2)) /\ 0 <= Rsum l' <= INR (length l).
  Proof.
    intros Hd Hbig Hs. set (D := INR d) in *. assert (HD : 1 <= D) by (apply (le_INR 1); lia).
    apply (rev_ind (fun l => forall l', (length l <= d)%nat -> Forall2 (fun x y => 0 <= y <= 1 /\ Rabs (x - y) <= 2 * u) l l' ->
      Rabs (fp_sum F l - Rsum l') <= INR (length l) * (u * (2 * D + 2)) /\ 0 <= Rsum l' <= INR (length l))).
    - intros l' _ H. inversion H; subst. unfold fp_sum, Rsum. cbn. rewrite Rminus_0_r, Rabs_R0. lra.
    - intros x l IH l' Hl H. rewrite app_length in Hl. cbn [length] in Hl.
      apply Forall2_app_inv_l in H as (l1 & l2 & H1 & H2 & ->). inversion H2 as [|? y ? l3 [Hy Hxy] H3 E1 E2]; subst.
      inversion H3; subst. destruct (IH l1 ltac:(lia) H1) as [I1 I2]. rewrite fsum_app, Rsum_app, app_length. cbn [fold_left length].
      rewrite Rsum_cons, Rsum_nil. replace (length l + 1)%nat with (S (length l)) by lia. rewrite S_INR.
      assert (Hn : INR (length l) + 1 <= D) by (rewrite <- S_INR; apply le_INR; lia).
      pose proof (pos_INR (length l)) as Pn. set (k := INR (length l)) in *. set (w := u * (2 * D + 2)) in *.
      assert (Hw : 0 <= w) by (apply Rmult_le_pos; lra).
      assert (Hk : k * w <= k) by nra. apply abs_le in I1, Hxy.
      assert (Ha : Rabs (f_add F (fp_sum F l) x - (fp_sum F l + x)) <= u * (2 * D)).
      { apply (add_err F u big max HF Hu); [|lra]. apply Rabs_le. lra. }
      apply abs_le in Ha. unfold w in *. split; [apply Rabs_le|]; lra.
  Qed.

  Lemma lse_err v A : v <> [] -> let d := length v in (forall x, In x v -> Rabs x <= A) ->
    2 * A + 4 * (INR d + 1) ^ 2 <= big -> 8 * (INR d + 1) ^ 2 * u <= 1 ->
    exists r, fp_logsumexp F v = Ok r /\ Rabs (r - ln (Rsum (map exp v))) <= u * (A + 4 * (INR d + 1) ^ 2).
  Proof.
    intros Hne d HA Hbig Hs. set (D := INR d) in *.
    assert (Hd : (0 < d)%nat) by (unfold d; destruct v; [congruence|cbn; lia]).
    assert (HD : 1 <= D) by (apply (le_INR 1); lia).
    assert (HD2 : (D + 1) ^ 2 = D * D + 2 * D + 1) by ring. assert (HDD : D <= D * D) by nra.
    rewrite HD2 in *.
    unfold fp_logsumexp. destruct (py_max_ok v Hne) as (m & -> & Hin & Hmax). cbn [bind].
    assert (Hm : Rabs m <= A) by (apply HA; exact Hin).
    assert (HA0 : 0 <= A) by (pose proof (Rabs_pos m); lra).
    assert (U0 : u * (2 * D + 2) <= u * (8 * (D * D + 2 * D + 1))) by (apply Rmult_le_compat_l; lra).
    set (l := map (fun x => f_exp F (f_sub F x m)) v). set (l' := map (fun x => exp (x - m)) v).
    assert (HF2 : Forall2 (fun x y => 0 <= y <= 1 /\ Rabs (x - y) <= 2 * u) l l').
    { assert (Hv : forall x, In x v -> Rabs x <= A /\ x <= m) by (intros x Hx; split; [apply HA|apply Hmax]; exact Hx).
      unfold l, l'. revert Hv. clearbody D. clear -HF Hu Hm Hbig HDD HD. induction v as [|x v IH]; intros Hv; cbn [map]; constructor.
      - destruct (Hv x (or_introl eq_refl)) as [Hx Hxm]. apply abs_le in Hx, Hm.
        set (t := x - m). set (e := f_sub F x m).
        assert (He : Rabs (e - t) <= u * Rabs t) by (apply (acc_sub _ _ _ _ HF); apply Rabs_le; nra).
        assert (Ht : t <= 0) by (unfold t; lra).
        assert (He0 : e <= 0) by (rewrite (Rabs_left1 t Ht) in He; apply abs_le in He; nra).
        destruct (acc_exp _ _ _ _ HF e He0) as [Hw0 Hw]. pose proof (exp_rel t e u ltac:(lra) Ht He) as Hex.
        pose proof (exp_pos t). assert (exp t <= 1) by (rewrite <- exp_0; apply exp_le_mono; exact Ht).
        apply abs_le in Hw, Hex. split; [lra|]. apply Rabs_le. lra.
      - apply IH. intros y Hy. apply Hv. right; exact Hy. }
    assert (Hl : length l = d) by apply map_length.
    destruct (sum_err d Hd ltac:(fold D; lra) ltac:(fold D; lra) l l' ltac:(lia) HF2) as [S1 S2]. rewrite Hl in *. fold D in S1, S2.
    assert (S3 : 1 <= Rsum l').
    { unfold l'. apply in_split in Hin as (v1 & v2 & ->). rewrite map_app, Rsum_app. cbn [map]. rewrite Rsum_cons.
      replace (m - m) with 0 by lra. rewrite exp_0.
      assert (P : forall w : list R, 0 <= Rsum (map (fun x => exp (x - m)) w)).
      { intros w. apply Rsum_nonneg. intros y Hy. apply in_map_iff in Hy as (z & <- & _). left. apply exp_pos. }
      pose proof (P v1). pose proof (P v2). lra. }
    set (s := fp_sum F l) in *. set (s' := Rsum l') in *. apply abs_le in S1.
    assert (S4 : D * (u * (2 * D + 2)) <= / 4) by nra.
    unfold fp_log. destruct (Rlt_dec 0 s) as [Hpos|Hn]; [|exfalso; apply Hn; lra]. cbn [bind].
    eexists; split; [reflexivity|].
    assert (Hln : Rabs (ln s - ln s') <= 2 * (D * (u * (2 * D + 2)))).
    { eapply Rle_trans; [apply (ln_lip _ _ (/ 2)); lra|]. unfold Rdiv. rewrite Rinv_inv.
      rewrite Rmult_comm. apply Rmult_le_compat_l; [lra|]. apply Rabs_le. lra. }
    assert (Hls : 0 <= ln s' <= D - 1).
    { split; [rewrite <- ln_1; apply ln_le; lra|]. pose proof (exp_ineq1_le (ln s')) as E. rewrite exp_ln in E by lra. lra. }
    apply abs_le in Hln.
    assert (Hl2 : Rabs (f_log F s - ln s) <= u * (1 + D)).
    { eapply Rle_trans; [apply (acc_log _ _ _ _ HF); lra|]. apply Rmult_le_compat_l; [lra|]. apply Rplus_le_compat_l, Rabs_le. lra. }
    assert (U1 : u * (1 + D) <= 1) by nra.
    apply abs_le in Hl2, Hm.
    assert (Hf : Rabs (f_add F m (f_log F s) - (m + f_log F s)) <= u * (A + (D + 1))).
    { apply (add_err F u big max HF Hu); [apply Rabs_le; lra|nra]. }
    assert (E : ln (Rsum (map exp v)) = m + ln s').
    { rewrite <- (ln_exp m) at 1. rewrite <- ln_mult; [|apply exp_pos|lra]. f_equal. unfold s', l'. rewrite <- Rsum_scal_l.
      apply Rsum_map_ext. intros x _. rewrite <- exp_plus. f_equal. lra. }
    rewrite E. apply abs_le in Hf.
    assert (T : 2 * (D * (u * (2 * D + 2))) + u * (1 + D) + u * (A + (D + 1)) <= u * (A + 4 * (D * D + 2 * D + 1))) by nra.
    apply Rabs_le. lra.
  Qed.
End lse.
