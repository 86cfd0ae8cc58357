(** C09: the Averager loses at most ln n against each member and never beats the best one. *)
From Verif Require Import Model.Averager Spec.Prob Proofs.AveragerFacts.
From Verif Require Props.C08.
Open Scope R_scope.

Theorem C09_averager_regret : forall S (M : model S) A okh okw Inv,
  steps M A okh okw Inv -> forall ms evs s0 s l,
  ms <> [] -> NoDup (map fst ms) -> (forall k m, In (k, m) ms -> Inv m) ->
  Forall (ok_event A okh okw) evs ->
  avg_init ms = Ok s0 -> run (AVG_model M) s0 evs = Ok (s, l) ->
  (forall k m s' li, In (k, m) ms -> run M m evs = Ok (s', li) -> - l <= - li + ln (INR (length ms))) /\
  (exists k m s' li, In (k, m) ms /\ run M m evs = Ok (s', li) /\ - li <= - l).
Proof. exact @avg_regret. Qed.
Print Assumptions C09_averager_regret.
(** [C08_ex] meets the hypotheses. *)
