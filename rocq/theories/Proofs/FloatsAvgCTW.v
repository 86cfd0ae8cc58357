(** Averages of CTW_KT predictors, alone and inside PTW, computed with rounding. *)
From Coq Require Import Lra Lia.
From Verif Require Import Spec.FloatsAvgSpec Spec.SeqSpec.
From Verif Require Import Proofs.RealFacts Proofs.KTRedundancy Proofs.SeqFacts Proofs.FloatsFacts Proofs.FloatsCTW Proofs.FloatsPTW Proofs.FloatsChop.
From Verif Require Import Proofs.FloatsAvgFacts Proofs.FloatsAvgTop.
Open Scope R_scope.

Section ctws.
  Context (F : floats) (u big : R) (max : nat).
  Hypothesis HF : accurate F u big max.
  Hypothesis Hu : 0 <= u <= / 64.
  Variables (n D : nat) (ds : list (Z * nat)).
  Hypothesis Hn : (0 < n)%nat.
  Hypothesis Hds : forall k e, In (k, e) ds -> (0 < e <= D)%nat.
  Hypothesis Hmax : (2 * n + 2 <= max)%nat.
  Hypothesis Hall : allowance n <= big.
  Hypothesis Hsm : INR n * u * ((INR D + 1) * allowance n) <= 1.
  Let L := ln (2 * INR n + 2).
  Let B := INR n * L + 2.
  Let eps := INR n * u * ((2 * INR D + 3) * allowance n).

  Lemma L_pos : 0 <= kt_most n.
  Proof. unfold kt_most. rewrite <- ln_1. pose proof (pos_INR n). apply ln_le; lra. Qed.
  Lemma allow_pos : 0 <= allowance n.
  Proof. unfold allowance. pose proof L_pos as H. unfold kt_most in H. pose proof (pos_INR n). nra. Qed.
  Lemma eps_pos : 0 <= eps.
  Proof.
    unfold eps. pose proof allow_pos. pose proof (pos_INR n). pose proof (pos_INR D).
    apply Rmult_le_pos; [apply Rmult_le_pos; lra|]. apply Rmult_le_pos; lra.
  Qed.
  Lemma B_big : 2 * B + 6 <= big.
  Proof. unfold allowance in Hall. fold L in Hall. unfold B. pose proof L_pos as H. unfold kt_most in H. fold L in H. pose proof (pos_INR n). assert (0 <= INR n * L) by (apply Rmult_le_pos; lra). lra. Qed.
  Lemma small_e e : (0 < e <= D)%nat -> INR n * u * Kd B e <= 1.
  Proof.
    intros [_ He]. eapply Rle_trans; [|exact Hsm]. apply Rmult_le_compat_l; [apply Rmult_le_pos; [apply pos_INR|lra]|].
    change (Kd B e) with ((INR e + 1) * allowance n). apply le_INR in He. pose proof allow_pos. apply Rmult_le_compat_r; lra.
  Qed.
  Lemma eps_e e : (0 < e <= D)%nat -> INR n * u * ((2 * INR e + 3) * K B) <= eps.
  Proof.
    intros [_ He]. unfold eps. apply Rmult_le_compat_l; [apply Rmult_le_pos; [apply pos_INR|lra]|].
    change (K B) with (allowance n). apply le_INR in He. pose proof allow_pos. apply Rmult_le_compat_r; lra.
  Qed.

  Definition some_close (k : Z) (m : nat) (x y : ctwkt) (b : R) : Prop :=
    exists e, In (k, e) ds /\ ctw_close u n e m x y b.

  Lemma ctws_tracks k e : In (k, e) ds -> tracks (FCTWKT_model F) CTWKT_model (ctwkt_init (Z.of_nat e)) (ctwkt_init (Z.of_nat e)) bits_ok n eps L 1 (some_close k).
  Proof.
    intros He. assert (T : forall e, In (k, e) ds -> _) by (intros e' He'; pose proof (Hds k e' He') as Hd;
      exact (ctw_tracks F u big max HF Hu n Hn Hmax e' (proj1 Hd) B_big (small_e e' Hd))).
    split.
    - exists e. split; [exact He|]. apply (tr_new _ _ _ _ _ _ _ _ _ _ (T e He)).
    - intros m x y b (e' & He' & Hc) Hm. exact (tr_size _ _ _ _ _ _ _ _ _ _ (T e' He') m x y b Hc Hm).
    - intros m x y b a h (e' & He' & Hc) Hm Hok.
      destruct (tr_step _ _ _ _ _ _ _ _ _ _ (T e' He') m x y b a h Hc Hm Hok) as (x' & y' & lx & ly & U1 & U2 & U3 & U4).
      exists x', y', lx, ly. split; [exact U1|]. split; [exact U2|]. split; [|exists e'; split; assumption].
      pose proof (eps_e e' (Hds k e' He')). fold L in U3. fold B in U3. lra.
  Qed.

  Lemma ctws_foresee k : foresees (FCTWKT_model F) CTWKT_model bits_ok n eps L 1 (some_close k).
  Proof.
    intros m x y b a h (e & He & Hc) Hm Hok. pose proof (Hds k e He) as Hd.
    pose proof (ctw_tracks F u big max HF Hu n Hn Hmax e (proj1 Hd) B_big (small_e e Hd)) as T.
    destruct (tr_step _ _ _ _ _ _ _ _ _ _ T m x y b a h Hc Hm Hok) as (x' & y' & lx & ly & U1 & U2 & U3 & U4).
    exists lx, ly. rewrite (model_predict_is_update F x a h 1), U1. cbn [outcome].
    rewrite <- exact_model, (model_predict_is_update exact y a h 1), exact_model, U2. cbn [outcome].
    split; [reflexivity|]. split; [reflexivity|]. split.
    - pose proof (eps_e e Hd). fold L in U3. fold B in U3. lra.
    - exact (tr_size _ _ _ _ _ _ _ _ _ _ T (S m) x' y' _ U4 Hm).
  Qed.

  Lemma ctws_follow : follow (FCTWKT_model F) CTWKT_model bits_ok n eps L 1 some_close (depths ds) (depths ds).
  Proof.
    unfold follow, depths. assert (H : forall kd, In kd ds -> In kd ds) by auto. revert H. generalize ds at 1 3 4. intros l.
    induction l as [|[k e] l IH]; intros Hl; cbn [map]; constructor.
    - cbn [fst snd]. split; [reflexivity|]. apply ctws_tracks. apply Hl. left; reflexivity.
    - apply IH. intros kd Hkd. apply Hl. right; exact Hkd.
  Qed.
End ctws.

Section top.
  Context (F : floats) (u big : R) (max : nat).
  Hypothesis HF : accurate F u big max.
  Hypothesis Hu : 0 <= u <= / 64.
  Variables (seq h : list Z) (ds : list (Z * nat)) (D : nat).
  Hypothesis Hs : incl seq [0; 1]%Z.
  Hypothesis Hh : incl h [0; 1]%Z.
  Hypothesis Hne : seq <> [].
  Hypothesis Hds : forall k e, In (k, e) ds -> (0 < e <= D)%nat.
  Hypothesis Hdn : ds <> [].
  Hypothesis Hnd : NoDup (map fst ds).
  Let n := length seq.
  Let d := length ds.
  Let eps := INR n * u * ((2 * INR D + 3) * allowance n).
  Hypothesis Hmax : (2 * n + 2 <= max)%nat.
  Hypothesis Hmd : (2 * d <= max)%nat.
  Hypothesis Hall : allowance n <= big.
  Hypothesis Hsm : INR n * u * ((INR D + 1) * allowance n) <= 1.
  Hypothesis Hbig : 2 * avg_size n d (kt_most n) 1 + 4 * (INR d + 1) ^ 2 <= big.
  Hypothesis Hdr : 2 * avg_drift u n d (kt_most n) 1 eps <= 1.

  Lemma n_pos : (0 < n)%nat.
  Proof. unfold n. destruct seq; [congruence|cbn; lia]. Qed.
  Lemma depths_len : length (depths ds) = d.
  Proof. apply map_length. Qed.
  Lemma depths_keys : map fst (depths ds) = map fst ds.
  Proof. unfold depths. rewrite map_map. reflexivity. Qed.
  Lemma depths_ne : depths ds <> [].
  Proof. unfold depths. destruct ds; [congruence|discriminate]. Qed.

  Theorem ctws_seq : exists s1 s2 x y r r', favg_init F (depths ds) = Ok s1 /\ avg_init (depths ds) = Ok s2 /\
    fp_update_seq F (FAVG_model F (FCTWKT_model F)) s1 seq h 1 = Ok (x, h, r') /\
    update_seq (AVG_model CTWKT_model) s2 seq h 1 = Ok (y, h, r) /\
    Rabs (r' - r) <= avg_loss u n d (kt_most n) 1 eps.
  Proof.
    destruct (average_seq F u big max HF Hu (FCTWKT_model F) CTWKT_model bits_ok eps (kt_most n) 1 (some_close u n ds) (depths ds) (depths ds)
      (L_pos n) Rle_0_1 (eps_pos u Hu n D) depths_ne) with (seq := seq) (h := h)
      as (s1 & s2 & x & y & r & r' & I1 & I2 & V1 & V2 & V3 & _).
    - rewrite depths_keys. exact Hnd.
    - rewrite depths_len. exact Hmd.
    - apply (ctws_follow F u big max HF Hu n D ds n_pos Hds Hmax Hall Hsm).
    - rewrite depths_len. exact Hbig.
    - rewrite depths_len. exact Hdr.
    - apply bits_run; assumption.
    - exact Hne.
    - rewrite depths_len in V3. exists s1, s2, x, y, r, r'. repeat split; assumption.
  Qed.

  Theorem ctws_ptw m : let e := avg_eps u n d (kt_most n) 1 eps in
    2 * ptw_size n (kt_most n) 1 + 6 <= big -> 25 * (INR n * ptw_loss u n (kt_most n) 1 e) <= 1 ->
    exists s1 s2 x y r r', favg_init F (depths ds) = Ok s1 /\ avg_init (depths ds) = Ok s2 /\
      fp_update_seq F (FPTW_model F (FAVG_model F (FCTWKT_model F)) m s1) (ptw_init m s1) seq h 1 = Ok (x, h, r') /\
      update_seq (PTW_model (AVG_model CTWKT_model) m s2) (ptw_init m s2) seq h 1 = Ok (y, h, r) /\
      Rabs (r' - r) <= 23 * (INR n * ptw_loss u n (kt_most n) 1 e).
  Proof.
    intros e Hb2 Hs2.
    destruct (average_tracks F u big max HF Hu (FCTWKT_model F) CTWKT_model bits_ok eps (kt_most n) 1 (some_close u n ds) (depths ds) (depths ds)
      (L_pos n) Rle_0_1 (eps_pos u Hu n D) depths_ne) with (N := n) as (s1 & s2 & cl & I1 & I2 & T).
    - rewrite depths_keys. exact Hnd.
    - rewrite depths_len. exact Hmd.
    - apply (ctws_follow F u big max HF Hu n D ds n_pos Hds Hmax Hall Hsm).
    - rewrite depths_len. exact Hbig.
    - rewrite depths_len. exact Hdr.
    - rewrite depths_len in T. fold e in T.
      assert (E0 : 0 <= e).
      { unfold e, avg_eps, avg_drift. pose proof (eps_pos u Hu n D) as Ep. fold eps in Ep.
        pose proof (L_pos n). pose proof (pos_INR n). pose proof (pos_INR d).
        assert (Hd1 : 1 <= INR d) by (apply (le_INR 1); unfold d; destruct ds; [congruence|cbn; lia]).
        assert (A0 : 0 <= avg_size n d (kt_most n) 1).
        { unfold avg_size. assert (0 <= ln (INR d)) by (rewrite <- ln_1; apply ln_le; lra). assert (0 <= INR n * kt_most n) by (apply Rmult_le_pos; lra). lra. }
        set (A := avg_size _ _ _ _) in *. assert (0 <= u * A) by (apply Rmult_le_pos; lra).
        assert (0 <= INR n * (eps + u * A)) by (apply Rmult_le_pos; lra).
        assert (0 <= u * (2 * A + 4 * (INR d + 1) ^ 2)) by (apply Rmult_le_pos; [lra|nra]). lra. }
      destruct (ptw_any F u big max m HF Hu _ _ s1 s2 bits_ok e (kt_most n) 1 cl seq h T (L_pos n) Rle_0_1 E0 (bits_run seq h Hs Hh) Hne Hb2 Hs2)
        as (x & y & r & r' & V1 & V2 & V3).
      exists s1, s2, x, y, r, r'. repeat split; assumption.
  Qed.
End top.

Lemma ctws_example : let u := powerRZ 2 (-52) in let n := 7%nat in let ds := [(0%Z, 1%nat); (1%Z, 8%nat)] in
  let d := 2%nat in let eps := INR n * u * ((2 * INR 8 + 3) * allowance n) in
  accurate (chopped 52) u 2000 (Z.to_nat (2 ^ 52)) /\ 0 <= u <= / 64 /\
  (forall k e, In (k, e) ds -> (0 < e <= 8)%nat) /\ NoDup (map fst ds) /\
  (2 * n + 2 <= Z.to_nat (2 ^ 52))%nat /\ (2 * d <= Z.to_nat (2 ^ 52))%nat /\ allowance n <= 2000 /\
  INR n * u * ((INR 8 + 1) * allowance n) <= 1 /\
  2 * avg_size n d (kt_most n) 1 + 4 * (INR d + 1) ^ 2 <= 2000 /\ 2 * avg_drift u n d (kt_most n) 1 eps <= 1 /\
  2 * ptw_size n (kt_most n) 1 + 6 <= 2000 /\
  25 * (INR n * ptw_loss u n (kt_most n) 1 (avg_eps u n d (kt_most n) 1 eps)) <= 1 /\
  avg_loss u n d (kt_most n) 1 eps <= / 1000000000.
Proof.
  cbv zeta. destruct ptw_example as (H1 & H2 & H3 & H4 & H5 & H6 & _). set (u := powerRZ 2 (-52)) in *.
  assert (Hu : u = / IZR (2 ^ 52)).
  { unfold u. replace (-52)%Z with (- (52))%Z by reflexivity. rewrite <- pow2_Z by lia.
    apply Rmult_eq_reg_r with (powerRZ 2 52); [|apply Rgt_not_eq, pow2_pos].
    rewrite <- pow2_add, Rinv_l by (apply Rgt_not_eq, pow2_pos). reflexivity. }
  change (2 ^ 52)%Z with 4503599627370496%Z in Hu.
  assert (HL : 0 <= kt_most 7 <= 15).
  { unfold kt_most. cbn [INR]. split; [rewrite <- ln_1; apply ln_le; lra|].
    pose proof (exp_ineq1_le (ln (2 * (1 + 1 + 1 + 1 + 1 + 1 + 1) + 2))) as E. rewrite exp_ln in E by lra. lra. }
  assert (HA : 0 <= allowance 7 <= 450).
  { unfold allowance. change (ln (2 * INR 7 + 2)) with (kt_most 7). cbn [INR]. lra. }
  assert (H2l : 0 <= ln (INR 2) <= 1) by (cbn [INR]; pose proof ln2_bounds; replace (1 + 1) with 2 by lra; lra).
  split; [exact H1|]. split; [exact H2|]. split; [intros k e [E|[E|[]]]; injection E as <- <-; lia|].
  split; [repeat constructor; cbn; intuition discriminate|]. split; [exact H3|]. split; [lia|]. split; [exact H4|]. split; [exact H5|].
  assert (A1 : 0 <= avg_size 7 2 (kt_most 7) 1 <= 111) by (unfold avg_size; cbn [INR] in *; lra).
  split; [cbn [INR]; lra|].
  assert (A2 : avg_drift u 7 2 (kt_most 7) 1 (INR 7 * u * ((2 * INR 8 + 3) * allowance 7)) <= 500000 * u).
  { unfold avg_drift. set (A := avg_size _ _ _ _) in *. cbn [INR]. rewrite Hu. lra. }
  split; [rewrite Hu in *; lra|]. split; [exact H6|]. split.
  - unfold ptw_loss, avg_eps, ptw_size. set (A := avg_size _ _ _ _) in *. set (dr := avg_drift _ _ _ _ _ _) in *. cbn [INR]. rewrite Hu in *. lra.
  - unfold avg_loss. set (A := avg_size _ _ _ _) in *. set (dr := avg_drift _ _ _ _ _ _) in *. cbn [INR]. rewrite Hu in *. lra.
Qed.
