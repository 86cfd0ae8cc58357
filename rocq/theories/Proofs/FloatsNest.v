(** Nested models computed with rounding follow the exact ones. *)
From Coq Require Import Lra Lia.
From Verif Require Import Spec.FloatsNestSpec.
From Verif Require Import Proofs.RealFacts Proofs.ProbFacts Proofs.KTRedundancy Proofs.FloatsFacts Proofs.FloatsFMNKT Proofs.FloatsChop Proofs.FloatsKTAny Proofs.FloatsCTWAny Proofs.FloatsAnyTop Proofs.FloatsPTWSteady.
Open Scope R_scope.

Section nest.
  Context (F : floats) (u big tiny : R) (max n : nat) (K : list Z).
  Hypothesis HF : accurate F u big max.
  Hypothesis HQ : divides F u tiny.
  Hypothesis Hu : 0 <= u <= / 64.
  Hypothesis Hn : (0 < n)%nat.

  Theorem nest_steady {S} (M1 : model S) f1 M2 f2 A okh eps L : nest F u big tiny max n K S M1 f1 M2 f2 A okh eps L ->
    0 <= L /\ 0 <= eps /\ exists close, steady M1 M2 f1 f2 A okh n eps L close.
  Proof.
    induction 1 as [A f1 HA Hne Hf H1 H2 H3|H|D HD H H1 H2|S M1 f1 M2 f2 A okh eps L binary D _ (IL & Ie & c & IH) HK HB HD H1 H2|S M1 f1 M2 f2 A okh eps L m _ (IL & Ie & c & IH) H1 H2].
    - destruct (kt_steady F u big tiny max HF HQ Hu A n HA Hne Hn H1 H2 H3) as (f2 & Hf2 & HT). rewrite Hf in Hf2. injection Hf2 as <-.
      split; [exact (L_pos u tiny A n HA Hne Hn H1 H2)|]. split; [exact (off_pos u tiny Hu A n HA Hne Hn H1 H2)|]. eexists. exact HT.
    - pose proof (most_pos n) as Hm. split; [exact Hm|]. split; [apply Rmult_le_pos; lra|].
      eexists. exact (ktb_steady F u big max HF Hu n Hn H).
    - pose proof (most_pos n) as Hm. split; [exact Hm|]. split.
      + assert (0 <= allowance n) by (unfold allowance; fold (kt_most n); pose proof (pos_INR n); nra).
        pose proof (pos_INR n). pose proof (pos_INR D). apply Rmult_le_pos; [apply Rmult_le_pos; lra|]. apply Rmult_le_pos; lra.
      + assert (H1' : 2 * (INR n * ln (2 * INR n + 2) + 2) + 6 <= big).
        { unfold allowance in H1. unfold kt_most in Hm. assert (0 <= INR n * ln (2 * INR n + 2)) by (apply Rmult_le_pos; [apply pos_INR|exact Hm]). lra. }
        eexists. exact (FloatsFMNKT.ctw_steady F u big max HF Hu n Hn H D HD H1' H2).
    - split; [exact IL|]. pose proof (pos_INR n) as Pn. split.
      + unfold ctw_off, ctw_drift, ctw_room. apply Rmult_le_pos; [lra|].
        assert (0 <= INR n * L) by (apply Rmult_le_pos; lra).
        assert (0 <= u * (4 * (INR n * L + 2) + 22)) by (apply Rmult_le_pos; lra).
        assert (0 <= INR (Datatypes.S (Datatypes.S D)) * (u * (4 * (INR n * L + 2) + 22))) by (apply Rmult_le_pos; [apply pos_INR|assumption]). lra.
      + eexists. exact (FloatsCTWAny.ctw_steady F u big max HF Hu M1 M2 f1 f2 A okh n eps L c IH Hn IL Ie binary K D HK HB HD H1 H2).
    - split; [exact IL|]. pose proof (pos_INR n) as Pn. split.
      + apply Rmult_le_pos; [lra|]. apply Rmult_le_pos; [exact Pn|]. unfold ptw_loss, ptw_size.
        assert (0 <= INR n * (L + 0 + 2)) by (apply Rmult_le_pos; lra).
        assert (0 <= u * (3 * (4 * INR n * (L + 0 + 2) + 8) + 20)) by (apply Rmult_le_pos; lra). lra.
      + eexists. exact (ptw_steady F u big max HF Hu M1 M2 f1 f2 A okh n eps L c IH m Hn IL Ie H1 H2).
  Qed.

  (** each value that update returns *)
  Theorem nest_values {S} (M1 : model S) f1 M2 f2 A okh eps L : nest F u big tiny max n K S M1 f1 M2 f2 A okh eps L ->
    forall evs a h, (length evs < n)%nat -> Forall (ok_event A okh (eq 1)) evs -> In a A -> okh h ->
    exists x y lx ly x' y' p q, run M1 f1 evs = Ok (x, lx) /\ run M2 f2 evs = Ok (y, ly) /\
      m_update M1 x a h 1 = Ok (x', p) /\ m_update M2 y a h 1 = Ok (y', q) /\ Rabs (p - q) <= eps /\ - L <= q <= 0.
  Proof.
    intros H evs a h Hl Hev Ha Hh. destruct (nest_steady M1 f1 M2 f2 A okh eps L H) as (_ & _ & c & HT).
    destruct (steady_run _ _ _ _ _ _ _ _ _ _ HT evs 0 f1 f2 (sd_new _ _ _ _ _ _ _ _ _ _ HT) ltac:(lia) Hev) as (x & y & lx & ly & R1 & R2 & R3).
    destruct (sd_step _ _ _ _ _ _ _ _ _ _ HT _ x y a h R3 ltac:(lia) Ha Hh) as (x' & y' & p & q & U1 & U2 & U3 & U4 & _).
    exists x, y, lx, ly, x', y', p, q. auto 10.
  Qed.
End nest.

Theorem nest_total F u big tiny max K : accurate F u big max -> divides F u tiny -> 0 <= u <= / 64 ->
  forall S (M1 : model S) f1 M2 f2 A okh eps L seq h, let n := length seq in nest F u big tiny max n K S M1 f1 M2 f2 A okh eps L ->
  seq <> [] -> INR n * L + 2 <= big -> let loss := INR n * (eps + u * (INR n * L + 2)) in loss <= 1 ->
  Forall (ok_event A okh (eq 1)) (events_from h seq 1) ->
  exists x y r r', fp_update_seq F M1 f1 seq h 1 = Ok (x, h, r') /\ update_seq M2 f2 seq h 1 = Ok (y, h, r) /\ Rabs (r' - r) <= loss.
Proof.
  intros HF HQ Hu S M1 f1 M2 f2 A okh eps L seq h n H Hne Hb loss Hs Hev.
  assert (Hn : (0 < n)%nat) by (unfold n; destruct seq; [congruence|cbn; lia]).
  destruct (nest_steady F u big tiny max n K HF HQ Hu Hn M1 f1 M2 f2 A okh eps L H) as (HL & He & c & HT).
  exact (steady_total F u big max HF Hu M1 M2 f1 f2 A okh eps L c seq h HT HL He Hne Hb Hs Hev).
Qed.

(** The loss of PTW is bounded in [eps] and [u]; a CTW over a PTW over KT over three symbols, a PTW over that, and a PTW over CTW_KT. *)
Lemma nest_example : let u := powerRZ 2 (-52) in let max := Z.to_nat (2 ^ 52) in
  accurate (chopped 52) u 10000 max /\ divides (chopped 52) u (/ 1000) /\ 0 <= u <= / 64 /\
  (exists f1 eps, fkt_init (chopped 52) [0; 1; 2]%Z = Ok f1 /\
    nest (chopped 52) u 10000 (/ 1000) max 7 [0; 1; 2]%Z _
      (FPTW_model (chopped 52) (FCTW_model (chopped 52) (FPTW_model (chopped 52) (FKT_model (chopped 52)) 0 f1) (ptw_init 0 f1) false) 1 (ctw_init (ptw_init 0 f1) (Z.of_nat 8)))
      (ptw_init 1 (ctw_init (ptw_init 0 f1) (Z.of_nat 8)))
      (PTW_model (CTW_model (PTW_model KT_model 0 (kt_init [0; 1; 2]%Z)) (ptw_init 0 (kt_init [0; 1; 2]%Z)) false) 1 (ctw_init (ptw_init 0 (kt_init [0; 1; 2]%Z)) (Z.of_nat 8)))
      (ptw_init 1 (ctw_init (ptw_init 0 (kt_init [0; 1; 2]%Z)) (Z.of_nat 8)))
      [0; 1; 2]%Z (okctx any_hist [0; 1; 2]%Z) eps (kt_worst 3 7) /\ INR 7 * (eps + u * (INR 7 * kt_worst 3 7 + 2)) <= / 1000) /\ INR 7 * kt_worst 3 7 + 2 <= 10000.
Proof.
  cbv zeta. destruct any_example as (H1 & H2 & H3 & H4 & _ & H5 & _ & H6 & _). set (u := powerRZ 2 (-52)) in *.
  assert (Hu : u = / IZR (2 ^ 52)).
  { unfold u. replace (-52)%Z with (- (52))%Z by reflexivity. rewrite <- pow2_Z by lia.
    apply Rmult_eq_reg_r with (powerRZ 2 52); [|apply Rgt_not_eq, pow2_pos].
    rewrite <- pow2_add, Rinv_l by (apply Rgt_not_eq, pow2_pos). reflexivity. }
  change (2 ^ 52)%Z with 4503599627370496%Z in Hu.
  assert (I7 : INR 7 = 7) by (cbn [INR]; lra). assert (I3 : INR 3 = 3) by (cbn [INR]; lra).
  assert (I9 : INR 9 = 9) by (cbn [INR]; lra). assert (I10 : INR 10 = 10) by (cbn [INR]; lra).
  assert (HL : 0 <= kt_worst 3 7 <= 20).
  { unfold kt_worst. rewrite I3, I7. replace (3 * 7) with 21 by lra. split; [rewrite <- ln_1; apply ln_le; lra|].
    pose proof (exp_ineq1_le (ln 21)) as E2. rewrite exp_ln in E2 by lra. lra. }
  assert (O1 : 0 <= kt_off u 3 7 <= 200 * u) by (unfold kt_off; rewrite I3, I7; rewrite Hu in *; lra).
  set (L := kt_worst 3 7) in *. set (e0 := kt_off u 3 7) in *.
  assert (P1 : forall e, 0 <= e -> 0 <= ptw_loss u 7 L 0 e <= e + 3000 * u) by (intros e He; unfold ptw_loss, ptw_size; rewrite I7; rewrite Hu in *; lra).
  pose proof (P1 e0 ltac:(lra)) as Q1. set (e1 := 45 * (INR 7 * ptw_loss u 7 L 0 e0)).
  assert (Q2 : 0 <= e1 <= 2000000 * u) by (unfold e1; rewrite I7; lra).
  assert (D1 : 0 <= ctw_drift u 7 8 L e1 <= 2100000 * u) by (unfold ctw_drift, ctw_room; rewrite I9, I7; rewrite Hu in *; lra).
  assert (D2 : 0 <= ctw_drift u 7 9 L e1 <= 2100000 * u) by (unfold ctw_drift, ctw_room; rewrite I10, I7; rewrite Hu in *; lra).
  set (e2 := ctw_off u 7 8 L e1). assert (Q3 : 0 <= e2 <= 30000000 * u) by (unfold e2, ctw_off; rewrite I7; lra).
  pose proof (P1 e2 ltac:(lra)) as Q4.
  split; [exact H1|]. split; [exact H3|]. split; [exact H2|]. split; [|exact H4].
  assert (HA : NoDup [0; 1; 2]%Z) by (repeat constructor; cbn; intuition discriminate).
  destruct H5 as (R1 & R2 & R3 & R4 & R5).
  destruct (kt_steady (chopped 52) u 10000 (/ 1000) _ H1 H3 H2 [0; 1; 2]%Z 7 HA ltac:(discriminate) ltac:(lia) R1 R2 R3) as (f1 & Hf & _).
  exists f1, (45 * (INR 7 * ptw_loss u 7 L 0 e2)). split; [exact Hf|]. split.
  - apply nest_ptw with (L := L) (eps := e2); [|exact H6|rewrite I7; rewrite Hu in *; lra].
    apply nest_ctw with (L := L) (eps := e1); [|cbn; auto|discriminate|lia|exact R4|rewrite I7; rewrite Hu in *; lra].
    apply nest_ptw with (L := L) (eps := e0); [|exact H6|rewrite I7; rewrite Hu in *; lra].
    exact (nest_kt _ _ _ _ _ _ _ [0; 1; 2]%Z f1 HA ltac:(discriminate) Hf R1 R2 R3).
  - rewrite I7. rewrite Hu in *. lra.
Qed.
