(** C26: the PTW classes of ctw.py and learners.py. [fresh] is what the factory returns; the
    recursion is the one of PTWSpec with minimal height 0 and a constant factory. *)
From Coq Require Import Lra.
From Verif Require Import Model.CtwPTW Model.LearnersPTW Spec.PTWSpec Proofs.CtwPTWFacts Proofs.LearnersPTWFacts.
From Verif Require Import Proofs.CtwKTFacts Proofs.LearnersKTFacts Proofs.KTFacts.
Open Scope R_scope.
Notation no_hist := (fun h : list Z => h = []).
Notation unit_weight := (fun w : R => w = 1).

(** ctw.PTW: base models keep their own log_prob, which update must increase by what it returns. *)
Theorem C26_ctw_recursion : forall S (Q : probseq S),
  (forall s a h w s' l, m_update (q_model Q) s a h w = Ok (s', l) -> q_lp Q s' = q_lp Q s + l) ->
  forall fresh, q_lp Q fresh = 0 -> forall A okw Inv,
  steps (q_model Q) A no_hist okw Inv -> Inv fresh -> forall H evs,
  Forall (ok_event A no_hist okw) evs -> (length evs <= 2 ^ H)%nat ->
  exists s l, run (QPTW_model Q fresh) (qptw_init fresh H) evs = Ok (s, l) /\
    exp l = ptw_prob (q_model Q) (fun _ => fresh) 0 H 0 evs.
Proof. exact @qptw_recursion. Qed.
Print Assumptions C26_ctw_recursion.

Theorem C26_ctw_log_predict : forall S (Q : probseq S),
  (forall s a h w s' l, m_update (q_model Q) s a h w = Ok (s', l) -> q_lp Q s' = q_lp Q s + l) ->
  forall fresh, q_lp Q fresh = 0 -> forall A okw Inv,
  steps (q_model Q) A no_hist okw Inv -> Inv fresh -> forall H evs e,
  Forall (ok_event A no_hist okw) evs -> ok_event A no_hist okw e -> (length evs < 2 ^ H)%nat ->
  exists s l s' l', run (QPTW_model Q fresh) (qptw_init fresh H) evs = Ok (s, l) /\
    qptw_update Q fresh s (ev_sym e) (ev_hist e) (ev_wt e) = Ok (s', l') /\
    qptw_log_predict Q fresh s (ev_sym e) (ev_hist e) = Ok l'.
Proof. exact @qptw_agree. Qed.
Print Assumptions C26_ctw_log_predict.

(** Its height is an upper bound it enforces: one symbol too many trips the assertion. *)
Theorem C26_ctw_full : forall S (Q : probseq S),
  (forall s a h w s' l, m_update (q_model Q) s a h w = Ok (s', l) -> q_lp Q s' = q_lp Q s + l) ->
  forall fresh, q_lp Q fresh = 0 -> forall A okw Inv,
  steps (q_model Q) A no_hist okw Inv -> Inv fresh -> forall H evs e,
  Forall (ok_event A no_hist okw) evs -> ok_event A no_hist okw e -> length evs = (2 ^ H)%nat ->
  exists s l, run (QPTW_model Q fresh) (qptw_init fresh H) evs = Ok (s, l) /\
    qptw_update Q fresh s (ev_sym e) (ev_hist e) (ev_wt e) = Err AssertionError.
Proof. exact @qptw_full. Qed.
Print Assumptions C26_ctw_full.

Theorem C26_learners_recursion : forall S (M : model S) fresh A Inv,
  steps M A no_hist unit_weight Inv -> Inv fresh -> forall D evs,
  Forall (ok_event A no_hist unit_weight) evs -> (length evs <= 2 ^ D)%nat ->
  exists s l, run (LPTW_model M fresh) (lptw_init fresh D) evs = Ok (s, l) /\
    exp l = ptw_prob M (fun _ => fresh) 0 D 0 evs /\ lw_lp s = l.
Proof. exact @lptw_recursion. Qed.
Print Assumptions C26_learners_recursion.

Theorem C26_learners_log_predict : forall S (M : model S) fresh A Inv,
  steps M A no_hist unit_weight Inv -> Inv fresh -> forall D evs e,
  Forall (ok_event A no_hist unit_weight) evs -> ok_event A no_hist unit_weight e -> (length evs < 2 ^ D)%nat ->
  exists s l s' l', run (LPTW_model M fresh) (lptw_init fresh D) evs = Ok (s, l) /\
    lptw_update M fresh s (ev_sym e) (ev_hist e) (ev_wt e) = Ok (s', l') /\
    lptw_log_predict M fresh s (ev_sym e) (ev_hist e) = Ok l'.
Proof. exact @lptw_agree. Qed.
Print Assumptions C26_learners_log_predict.

Theorem C26_learners_full : forall S (M : model S) fresh A Inv,
  steps M A no_hist unit_weight Inv -> Inv fresh -> forall D evs a h w,
  Forall (ok_event A no_hist unit_weight) evs -> length evs = (2 ^ D)%nat ->
  exists s l, run (LPTW_model M fresh) (lptw_init fresh D) evs = Ok (s, l) /\
    lptw_update M fresh s a h w = Err ValueError.
Proof. exact @lptw_full. Qed.
Print Assumptions C26_learners_full.

(** It never keeps more than depth+1 base models. *)
Theorem C26_learners_memory : forall S (M : model S) fresh A Inv,
  steps M A no_hist unit_weight Inv -> Inv fresh -> forall D evs,
  Forall (ok_event A no_hist unit_weight) evs -> (length evs <= 2 ^ D)%nat ->
  exists s l, run (LPTW_model M fresh) (lptw_init fresh D) evs = Ok (s, l) /\
    (length (lw_models s) <= D + 1)%nat.
Proof. exact @lptw_memory. Qed.
Print Assumptions C26_learners_memory.

(** Outside the property: when the learner is full, update raises but log_predict answers, with
    the prediction of a fresh base model divided by the probability of everything seen. *)
Theorem C26_learners_full_predict : forall S (M : model S) fresh A Inv,
  steps M A no_hist unit_weight Inv -> Inv fresh -> forall D evs a,
  Forall (ok_event A no_hist unit_weight) evs -> In a A -> length evs = (2 ^ D)%nat ->
  exists s l lf, run (LPTW_model M fresh) (lptw_init fresh D) evs = Ok (s, l) /\
    m_logp M fresh a [] = Ok lf /\ lptw_log_predict M fresh s a [] = Ok (lf - l).
Proof. exact @lptw_full_predict. Qed.
Print Assumptions C26_learners_full_predict.

(** PTW of height 3 over ctw.KT, weights 1 and 1/2; five symbols. *)
Example C26_ctw_ex :
  (forall s a h w s' l, m_update (q_model QKT_class) s a h w = Ok (s', l) ->
     q_lp QKT_class s' = q_lp QKT_class s + l) /\
  q_lp QKT_class (qkt_init [0; 1]%Z) = 0 /\
  steps (q_model QKT_class) [0; 1]%Z no_hist nonneg (qkt_inv [0; 1]%Z) /\
  qkt_inv [0; 1]%Z (qkt_init [0; 1]%Z) /\
  Forall (ok_event [0; 1]%Z no_hist nonneg)
    [Event 1 [] 1; Event 0 [] (/ 2); Event 0 [] 1; Event 1 [] 1; Event 0 [] 1] /\ (5 < 2 ^ 3)%nat.
Proof.
  split; [exact qkt_law|]. split; [reflexivity|]. split; [apply qkt_steps|]. split.
  - apply qkt_inv_init; [|discriminate]. repeat constructor; cbn; intuition lia.
  - split; [|cbn; lia].
    repeat apply Forall_cons; try apply Forall_nil; unfold ok_event, nonneg; cbn; intuition lra.
Qed.

(** PTW of depth 3 over learners.KT; five symbols, and eight to fill it. *)
Example C26_learners_ex :
  steps LKT_model [0; 1]%Z no_hist unit_weight (lkt_inv [0; 1]%Z) /\
  lkt_inv [0; 1]%Z (lkt_init [0; 1]%Z) /\
  Forall (ok_event [0; 1]%Z no_hist unit_weight)
    (map (fun a => Event a [] 1) [1; 0; 0; 1; 0; 1; 1; 1]%Z) /\ length [1; 0; 0; 1; 0; 1; 1; 1]%Z = (2 ^ 3)%nat.
Proof.
  split; [apply lkt_steps|]. split.
  - apply lkt_inv_init; [|discriminate]. repeat constructor; cbn; intuition lia.
  - split; [|reflexivity].
    repeat apply Forall_cons; try apply Forall_nil; unfold ok_event; cbn; intuition lra.
Qed.
