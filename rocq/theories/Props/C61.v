(** C61: SAD and Averager of ctw.py. [Q] is the class of the members and [reset] the assignment
    log_prob = 0 that the Averager makes on each of them. *)
From Coq Require Import Lra.
From Verif Require Import Model.CtwFMN Model.CtwCTW Model.KT Spec.CtwFMNSpec Spec.CtwSpec Spec.PTWSpec.
From Verif Require Import Proofs.CtwAveragerTop Proofs.CtwSADFacts Proofs.CtwKTFacts Proofs.KTFacts Proofs.SADFacts.
Open Scope R_scope.
Notation no_hist := (fun h : list Z => h = []).
Notation adds_up Q := (forall s a h w s' l, m_update (q_model Q) s a h w = Ok (s', l) -> q_lp Q s' = q_lp Q s + l).
Notation AVG Q := (q_model (QAVG_class Q)).

(** SAD answers as model.py's SAD does, for all calls. *)
Theorem C61_sad_same : forall n,
  same_values (q_model QSAD_class) (qsad_init n) SAD_model (sad_init n) (fun _ => True).
Proof. exact qsad_same. Qed.
Print Assumptions C61_sad_same.

(** The Averager answers as model.py's over the members with their totals set to 0. *)
Theorem C61_averager_same : forall S (Q : probseq S) reset, adds_up Q -> (forall s, q_lp Q (reset s) = 0) ->
  forall ms, ms <> [] ->
  exists s0 a0, qavg_init reset ms = Ok s0 /\ avg_init (number_from 0 (map reset ms)) = Ok a0 /\
    same_values (AVG Q) s0 (AVG_model (without_history (q_model Q))) a0 (fun _ => True).
Proof. exact @averager_same_as_model. Qed.
Print Assumptions C61_averager_same.

(** For KT and SAD the reset is harmless ... *)
Theorem C61_running_totals : running_total QKT_class qkt_reset /\ running_total QSAD_class qsad_reset.
Proof. exact (conj qkt_rt qsad_rt). Qed.
Print Assumptions C61_running_totals.

(** ... and then the probability of a sequence is the mean of the members' probabilities, whatever
    they saw before. *)
Theorem C61_mixture : forall S (Q : probseq S) reset A okw Inv, running_total Q reset ->
  steps (q_model Q) A no_hist okw Inv -> (forall s, Inv s -> Inv (reset s)) ->
  forall ms evs, ms <> [] -> Forall Inv ms -> Forall (ok_event A no_hist okw) evs ->
  exists s0 s l, qavg_init reset ms = Ok s0 /\ run (AVG Q) s0 evs = Ok (s, l) /\
    exp l = / INR (length ms) * Rsum (map (fun m => seq_prob (q_model Q) m evs) ms) /\
    Forall2 (fed Q reset evs) ms (qa_models s) /\ qa_lp s = l.
Proof. exact @averager_mixture. Qed.
Print Assumptions C61_mixture.

Theorem C61_regret : forall S (Q : probseq S) reset A okw Inv, running_total Q reset ->
  steps (q_model Q) A no_hist okw Inv -> (forall s, Inv s -> Inv (reset s)) ->
  forall ms evs m s0 s l, Forall Inv ms -> Forall (ok_event A no_hist okw) evs -> In m ms ->
  qavg_init reset ms = Ok s0 -> run (AVG Q) s0 evs = Ok (s, l) ->
  - l <= - ln (seq_prob (q_model Q) m evs) + ln (INR (length ms)).
Proof. exact @averager_regret. Qed.
Print Assumptions C61_regret.

Theorem C61_log_predict : forall S (Q : probseq S) reset A okw Inv, running_total Q reset ->
  steps (q_model Q) A no_hist okw Inv -> (forall s, Inv s -> Inv (reset s)) ->
  forall ms evs e s0 s l, Forall Inv ms -> ms <> [] -> Forall (ok_event A no_hist okw) evs -> ok_event A no_hist okw e ->
  qavg_init reset ms = Ok s0 -> run (AVG Q) s0 evs = Ok (s, l) ->
  exists s' l', m_update (AVG Q) s (ev_sym e) (ev_hist e) (ev_wt e) = Ok (s', l') /\
    m_logp (AVG Q) s (ev_sym e) (ev_hist e) = Ok l'.
Proof. exact @averager_agrees. Qed.
Print Assumptions C61_log_predict.

Theorem C61_distribution : forall S (Q : probseq S) reset A okw Inv, running_total Q reset ->
  steps (q_model Q) A no_hist okw Inv -> (forall s, Inv s -> Inv (reset s)) ->
  forall ms evs s0 s l, lawful (q_model Q) A no_hist okw Inv -> (exists w, okw w) ->
  Forall Inv ms -> ms <> [] -> Forall (ok_event A no_hist okw) evs ->
  qavg_init reset ms = Ok s0 -> run (AVG Q) s0 evs = Ok (s, l) ->
  Rsum (map (fun a => pred_prob (AVG Q) s a []) A) = 1.
Proof. exact @averager_distribution. Qed.
Print Assumptions C61_distribution.

(** map returns the member under which the sequence was most probable, the first if several. *)
Theorem C61_map : forall S (Q : probseq S) reset A okw Inv, running_total Q reset ->
  steps (q_model Q) A no_hist okw Inv -> (forall s, Inv s -> Inv (reset s)) ->
  forall ms evs s0 s l, Forall Inv ms -> ms <> [] -> Forall (ok_event A no_hist okw) evs ->
  qavg_init reset ms = Ok s0 -> run (AVG Q) s0 evs = Ok (s, l) ->
  exists ms1 m ms2 m', ms = ms1 ++ m :: ms2 /\ qavg_map Q s = Ok m' /\ fed Q reset evs m m' /\
    (forall x, In x ms1 -> seq_prob (q_model Q) x evs < seq_prob (q_model Q) m evs) /\
    (forall x, In x ms2 -> seq_prob (q_model Q) x evs <= seq_prob (q_model Q) m evs).
Proof. exact @averager_map. Qed.
Print Assumptions C61_map.

(** PTW, CTW and Averager itself compute log_prob anew at each update. The probabilities an
    Averager over such members first gives then sum to the mean of exp(log_prob) of the members,
    as it was before the reset, instead of 1. *)
Theorem C61_recomputed :
  (forall S (Q : probseq S) fresh, recomputed (QPTW_class Q fresh) qptw_reset) /\
  (forall S (Q : probseq S) fresh mkctx, recomputed (QCTW_class Q fresh mkctx) qobj_reset) /\
  (forall S (Q : probseq S), recomputed (QAVG_class Q) qavg_reset).
Proof. exact (conj (@qptw_recomputed) (conj (@qctw_recomputed) (@qavg_recomputed))). Qed.
Print Assumptions C61_recomputed.

Theorem C61_recomputed_refuted : forall S (Q : probseq S) reset, recomputed Q reset -> adds_up Q ->
  forall A w ms a0, ms <> [] ->
  (forall m, In m ms -> Rsum (map (fun a => upd_prob (m_update (q_model Q)) m a [] w) A) = 1) ->
  (forall m a, In m ms -> In a A -> exists s' l, m_update (q_model Q) m a [] w = Ok (s', l)) ->
  qavg_init reset ms = Ok a0 ->
  Rsum (map (fun a => upd_prob (qavg_update Q) a0 a [] w) A) =
  / INR (length ms) * Rsum (map (fun m => exp (q_lp Q m)) ms).
Proof. exact @recomputed_mass. Qed.
Print Assumptions C61_recomputed_refuted.

(** One PTW, trained on [evs]: they sum to the probability the PTW gave to [evs]. *)
Theorem C61_ptw_member_refuted : forall S (Q : probseq S) fresh A okw Inv H evs w, adds_up Q ->
  q_lp Q fresh = 0 -> lawful (q_model Q) A no_hist okw Inv -> Inv fresh ->
  Forall (ok_event A no_hist okw) evs -> okw w -> (length evs < 2 ^ H)%nat ->
  exists s l a0, run (QPTW_model Q fresh) (qptw_init fresh H) evs = Ok (s, l) /\
    qavg_init qptw_reset [s] = Ok a0 /\
    Rsum (map (fun a => upd_prob (qavg_update (QPTW_class Q fresh)) a0 a [] w) A) = exp l.
Proof. exact @averager_ptw_mass. Qed.
Print Assumptions C61_ptw_member_refuted.

Theorem C61_ctw_member_refuted : forall S (Q : probseq S) fresh A okw Inv K D sw w, adds_up Q ->
  q_lp Q fresh = 0 -> lawful (q_model Q) A no_hist okw Inv -> Inv fresh ->
  NoDup K -> In 0%Z K -> incl A K -> okw 1 ->
  Forall (fun p => In (fst p) A /\ okw (snd p)) sw -> okw w ->
  let QC := QCTW_class Q fresh (mkcontext (Z.of_nat D)) in
  exists s rs a0, hexec (qobj_update Q fresh (mkcontext (Z.of_nat D))) (qobj_log_predict Q fresh (mkcontext (Z.of_nat D)))
      (qobj_init fresh (Z.of_nat D)) (updates sw) = Ok (s, rs) /\
    qavg_init qobj_reset [s] = Ok a0 /\
    Rsum (map (fun a => upd_prob (qavg_update QC) a0 a [] w) A) = exp (Rsum rs).
Proof. exact @averager_ctw_mass. Qed.
Print Assumptions C61_ctw_member_refuted.

(** A PTW of height 1 over KT that has seen one symbol. *)
Theorem C61_half_refuted : exists s l a0,
  run (QPTW_model QKT_class (qkt_init [0; 1]%Z)) (qptw_init (qkt_init [0; 1]%Z) 1) [Event 0 [] 1] = Ok (s, l) /\
  qavg_init qptw_reset [s] = Ok a0 /\
  Rsum (map (fun a => upd_prob (qavg_update (QPTW_class QKT_class (qkt_init [0; 1]%Z))) a0 a [] 1) [0; 1]%Z) = / 2.
Proof. exact averager_ptw_half. Qed.
Print Assumptions C61_half_refuted.

(** Two KT members, one of which has been trained. *)
Example C61_ex : let A := [0; 1]%Z in let ms := [qkt_init A; QKT [(0%Z, 5 / 2); (1%Z, / 2)] (-3)] in
  let evs := [Event 0 [] 1; Event 1 [] (/ 2)] in
  running_total QKT_class qkt_reset /\ steps (q_model QKT_class) A no_hist nonneg (qkt_inv A) /\
  lawful (q_model QKT_class) A no_hist nonneg (qkt_inv A) /\
  (forall s, qkt_inv A s -> qkt_inv A (qkt_reset s)) /\ ms <> [] /\ Forall (qkt_inv A) ms /\
  Forall (ok_event A no_hist nonneg) evs /\ (exists w, nonneg w) /\
  (forall n, exists s0, qavg_init qkt_reset (repeat (qkt_init A) (S n)) = Ok s0).
Proof.
  intros A ms evs. assert (HA : NoDup A) by (repeat constructor; cbn; intuition lia).
  split; [exact qkt_rt|]. split; [apply qkt_steps|]. split; [apply qkt_lawful|]. split; [intros s H; exact H|].
  split; [discriminate|]. split; [|split; [|split]].
  - constructor; [apply qkt_inv_init; [exact HA|discriminate]|]. constructor; [|constructor].
    unfold qkt_inv, as_kt, kt_inv. cbn. split; [reflexivity|]. split; [|split; [reflexivity|split; [exact HA|discriminate]]].
    intros v [<-|[<-|[]]]; lra.
  - repeat apply Forall_cons; try apply Forall_nil; unfold ok_event, nonneg; cbn; intuition lra.
  - exists 0. unfold nonneg. lra.
  - intros n. destruct (averager_same_as_model QKT_class qkt_reset qkt_law (fun _ => eq_refl) (repeat (qkt_init A) (S n))) as (s0 & _ & E & _);
      [discriminate|]. eauto.
Qed.
