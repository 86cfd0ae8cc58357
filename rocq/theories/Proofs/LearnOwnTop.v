(** The models of ctw.py and learners.py over their own estimators. *)
From Coq Require Import Lra Lia Permutation.
From Verif Require Import Model.KT Model.CTW Model.CtwPTW Model.CtwCTW Model.CtwFMN Model.LearnersPTW Model.Stores Spec.LearnSpec Spec.CtwSpec Spec.CtwFMNSpec Spec.PTWSpec Spec.SeqSpec.
From Verif Require Import Proofs.RealFacts Proofs.PyFacts Proofs.ProbFacts Proofs.KTFacts Proofs.SADFacts Proofs.LearnersKTFacts.
From Verif Require Import Proofs.CtwKTFacts Proofs.CtwSADFacts Proofs.LearnEst Proofs.LearnTop Proofs.LearnOwn Proofs.LearnOwnTracks.
Open Scope R_scope.

Lemma own_events A K seq : incl seq A -> incl A K -> forall h, incl h K -> Forall (fun e => symbol_of A e /\ incl (ev_hist e) K) (events_from h seq 1).
Proof.
  intros Hs HA. induction seq as [|a seq IH]; intros h Hh; cbn [events_from]; constructor.
  - split; [split; [apply Hs; now left|reflexivity]|exact Hh].
  - apply IH; [intros x Hx; apply Hs; now right|]. intros x Hx. apply in_app_iff in Hx as [Hx|[<-|[]]]; [now apply Hh|apply HA, Hs; now left].
Qed.
Lemma own_events_all A K seqs : Forall (fun seq => incl seq A) seqs -> incl A K ->
  Forall (fun e => symbol_of A e /\ incl (ev_hist e) K) (flat_map (fun seq => events_from [] seq 1) seqs).
Proof.
  intros H HA. induction H as [|seq seqs Hs _ IH]; cbn [flat_map]; [constructor|]. apply Forall_app. split; [|exact IH].
  apply own_events; [exact Hs|exact HA|apply incl_nil_l].
Qed.

Lemma steps_bare {S} (M : model S) A okh okw Inv : (forall okh0, steps M A okh0 okw Inv) -> steps (without_history M) A okh okw Inv.
Proof. intros H s a h w HI Ha Hh Hw. exact (H (fun h => h = []) s a [] w HI Ha eq_refl Hw). Qed.

Section kt.
  Variable A : list Z.
  Hypothesis HA : NoDup A.
  Let k := length A.
  Hypothesis Hk : (2 <= k)%nat.
  Let Hne : A <> [] := A_ne A Hk.

  (** CTW(depth, lambda: KT(A)) of ctw.py; reset_history after each sequence *)
  Theorem ctw_ctw_kt K D : NoDup K -> In 0%Z K -> incl A K -> (0 < D)%nat ->
    forall L C r, tree_of (memoryless A) K D L C r -> forall seqs, Forall (fun seq => incl seq A) seqs ->
    let evs := flat_map (fun seq => events_from [] seq 1) seqs in 0 < Rprod (map r evs) ->
    let Q := QKT_class in let fresh := qkt_init A in
    exists s rs, episodes reset_history (qobj_update Q fresh (mkcontext (Z.of_nat D))) (qobj_log_predict Q fresh (mkcontext (Z.of_nat D)))
        (qobj_init fresh (Z.of_nat D)) (map (fun seq => updates (map (fun a => (a, 1)) seq)) seqs) = Ok (s, rs) /\
      - Rsum rs <= - ln (Rprod (map r evs)) + INR L * learn_any k (length evs) + INR C * ln 2.
  Proof.
    intros HK H0 HAK HD L C r Hr seqs Hs evs Hpos Q fresh.
    exact (own_learns_episodes QKT_class qkt_law (qkt_init A) eq_refl A any_hist nonneg (qkt_inv A) (steps_bare _ _ _ _ _ (qkt_steps A)) (qkt_inv_init A HA Hne)
      (memoryless A) (learn_any k) (symbol_of A) (symbol_ok A) (qkt_learns A HA Hk) (learn_any_mono A Hk) (learn_any_nonneg A Hk) (memoryless_nonneg A)
      K D HK H0 HD L C r Hr seqs (own_events_all A K seqs Hs HAK) Hpos).
  Qed.

  Variable q : nat -> event -> R.
  Hypothesis Hq : forall t, memoryless A (q t).
  Variable cps : list nat.
  Hypothesis Hch : changes_only q cps.
  Variables (H : nat) (xs : list Z).
  Hypothesis Hx : incl xs A.
  Hypothesis Hlen : (length xs <= 2 ^ H)%nat.
  Let evs := unit_events xs.
  Hypothesis Hpos : 0 < source_prob q 0 evs.
  Let n := length xs.
  Let c := length cps.

  Lemma plain_units : Forall (fun e => symbol_of A e /\ ev_hist e = []) evs.
  Proof. unfold evs, unit_events. apply Forall_map, Forall_forall. intros x Hi. split; [split; [apply Hx, Hi|reflexivity]|reflexivity]. Qed.
  Lemma units_length : length evs = n.
  Proof. apply map_length. Qed.
  Lemma units_fit : (length evs <= 2 ^ H)%nat.
  Proof. rewrite units_length. exact Hlen. Qed.
  Lemma plain_ok (okw : R -> Prop) e : okw 1 -> symbol_of A e /\ ev_hist e = [] -> ok_event A (fun h => h = []) okw e.
  Proof. intros H1 [[G1 G2] G3]. split; [exact G1|]. split; [exact G3|]. rewrite G2. exact H1. Qed.
  Lemma nonneg_1 : nonneg 1.
  Proof. unfold nonneg. lra. Qed.

  Theorem ctw_ptw_kt : exists s l, run (QPTW_model QKT_class (qkt_init A)) (qptw_init (qkt_init A) H) evs = Ok (s, l) /\
    - l <= - ln (source_prob q 0 evs) + (INR (1 + c * H) * learn_any k n + INR (1 + 2 * c * H) * ln 2).
  Proof.
    rewrite <- units_length.
    exact (qptw_tracks QKT_class A nonneg (qkt_inv A) (qkt_steps A _) (qkt_init A) (qkt_inv_init A HA Hne) (memoryless A) (learn_any k) _
      (fun e => plain_ok nonneg e nonneg_1) (qkt_learns_plain A HA Hk) (learn_any_mono A Hk) (learn_any_nonneg A Hk)
      q (fun t e => memoryless_nonneg A (q t) e (Hq t)) Hq cps Hch H evs plain_units units_fit Hpos qkt_law eq_refl).
  Qed.

  Theorem ctw_fmn_kt order : (forall t l, Permutation (order t l) l) ->
    exists s0 s l, qfmn_init qkt_reset (LogStore_class _) order H (qkt_init A) = Ok s0 /\
      run (QFMN_model QKT_class qkt_reset (LogStore_class _) order) s0 evs = Ok (s, l) /\
      - l <= - ln (source_prob q 0 evs) + (INR (1 + c * H) * (learn_any k n + ln (INR (Nat.log2 (1 + n) + 1))) + INR (1 + 2 * c * H) * ln 2).
  Proof.
    intros Hord. rewrite <- units_length.
    exact (qfmn_tracks QKT_class A nonneg (qkt_inv A) (qkt_steps A _) (qkt_init A) (qkt_inv_init A HA Hne) (memoryless A) (learn_any k) _
      (fun e => plain_ok nonneg e nonneg_1) (qkt_learns_plain A HA Hk) (learn_any_mono A Hk) (learn_any_nonneg A Hk)
      q (fun t e => memoryless_nonneg A (q t) e (Hq t)) Hq cps Hch H evs plain_units units_fit Hpos qkt_reset order Hord qkt_rt (fun s Hs => Hs)).
  Qed.

  Theorem learners_ptw_kt : exists s l, run (LPTW_model LKT_model (lkt_init A)) (lptw_init (lkt_init A) H) evs = Ok (s, l) /\
    - l <= - ln (source_prob q 0 evs) + (INR (1 + c * H) * learn_any k n + INR (1 + 2 * c * H) * ln 2).
  Proof.
    rewrite <- units_length.
    exact (lptw_tracks LKT_model A (lkt_inv A) (lkt_steps A _) (lkt_init A) (lkt_inv_init A HA Hne) (memoryless A) (learn_any k) _
      (fun e => plain_ok (fun w => w = 1) e eq_refl) (lkt_learns_plain A HA Hk) (learn_any_mono A Hk) (learn_any_nonneg A Hk)
      q (fun t e => memoryless_nonneg A (q t) e (Hq t)) Hq cps Hch H evs plain_units units_fit Hpos).
  Qed.
End kt.

Section sad.
  Variable A : list Z.
  Hypothesis HA : NoDup A.
  Hypothesis Hne : A <> [].
  Let k := length A.
  Let fresh := qsad_init (Z.of_nat k).

  Lemma qsad_inv_init : qsad_inv A fresh.
  Proof. exact (sad_inv_init A HA). Qed.

  Theorem ctw_ctw_sad K D : NoDup K -> In 0%Z K -> incl A K -> (0 < D)%nat ->
    forall L C r, tree_of (memoryless A) K D L C r -> forall seqs, Forall (fun seq => incl seq A) seqs ->
    let evs := flat_map (fun seq => events_from [] seq 1) seqs in 0 < Rprod (map r evs) ->
    let Q := QSAD_class in
    exists s rs, episodes reset_history (qobj_update Q fresh (mkcontext (Z.of_nat D))) (qobj_log_predict Q fresh (mkcontext (Z.of_nat D)))
        (qobj_init fresh (Z.of_nat D)) (map (fun seq => updates (map (fun a => (a, 1)) seq)) seqs) = Ok (s, rs) /\
      - Rsum rs <= - ln (Rprod (map r evs)) + INR L * sad_learn k (length evs) + INR C * ln 2.
  Proof.
    intros HK H0 HAK HD L C r Hr seqs Hs evs Hpos Q.
    exact (own_learns_episodes QSAD_class (rt_adds _ _ qsad_rt) fresh eq_refl A any_hist positive (qsad_inv A) (steps_bare _ _ _ _ _ (qsad_steps A)) qsad_inv_init
      (memoryless A) (sad_learn k) (symbol_of A) (symbol_positive A) (qsad_learns A HA Hne) (sad_learn_mono A HA Hne) (sad_learn_nonneg A HA Hne) (memoryless_nonneg A)
      K D HK H0 HD L C r Hr seqs (own_events_all A K seqs Hs HAK) Hpos).
  Qed.

  Theorem ctw_fmn_sad q cps H xs order : (forall t, memoryless A (q t)) -> changes_only q cps -> incl xs A -> (length xs <= 2 ^ H)%nat ->
    (forall t l, Permutation (order t l) l) -> let evs := unit_events xs in 0 < source_prob q 0 evs -> let n := length xs in let c := length cps in
    exists s0 s l, qfmn_init qsad_reset (LogStore_class _) order H fresh = Ok s0 /\
      run (QFMN_model QSAD_class qsad_reset (LogStore_class _) order) s0 evs = Ok (s, l) /\
      - l <= - ln (source_prob q 0 evs) + (INR (1 + c * H) * (sad_learn k n + ln (INR (Nat.log2 (1 + n) + 1))) + INR (1 + 2 * c * H) * ln 2).
  Proof.
    intros Hq Hch Hx Hlen Hord evs Hpos n c. replace n with (length evs) by apply map_length.
    assert (P1 : positive 1) by (unfold positive; lra).
    exact (qfmn_tracks QSAD_class A positive (qsad_inv A) (qsad_steps A _) fresh qsad_inv_init (memoryless A) (sad_learn k) _
      (fun e => plain_ok A positive e P1) (qsad_learns_plain A HA Hne) (sad_learn_mono A HA Hne) (sad_learn_nonneg A HA Hne)
      q (fun t e => memoryless_nonneg A (q t) e (Hq t)) Hq cps Hch H evs (plain_units A xs Hx) (units_fit H xs Hlen) Hpos qsad_reset order Hord qsad_rt (fun s Hs => Hs)).
  Qed.
End sad.
