(** C10: Averager.map returns the first member with maximal posterior weight. With a uniform
    prior the posterior weight of a member is proportional to the probability it gave to the
    events. *)
From Verif Require Import Model.Averager Spec.Prob Proofs.AveragerProps.
Open Scope R_scope.

Theorem C10_averager_map : forall S (M : model S) A okh okw Inv ms evs,
  steps M A okh okw Inv ->
  ms <> [] -> NoDup (map fst ms) -> (forall k m, In (k, m) ms -> Inv m) ->
  Forall (ok_event A okh okw) evs ->
  exists s0 s l k m0 m lm ms1 ms2,
    avg_init ms = Ok s0 /\ run (AVG_model M) s0 evs = Ok (s, l) /\ avg_map s = Ok (k, m) /\
    ms = ms1 ++ (k, m0) :: ms2 /\ run M m0 evs = Ok (m, lm) /\
    (forall km, In km ms -> seq_prob M (snd km) evs <= seq_prob M m0 evs) /\
    (forall km, In km ms1 -> seq_prob M (snd km) evs < seq_prob M m0 evs).
Proof. exact @averager_map. Qed.
Print Assumptions C10_averager_map.
(** [C08_ex] meets the hypotheses. *)
