(** C23: not knowing the sequence length costs PTW at most ln(3/2) per doubling (the first
    doubling is free); the gain is at most ln 2 per doubling. *)
From Verif Require Import Model.PTW Spec.PTWSpec Proofs.PTWTop.
From Verif Require Props.C20.
Open Scope R_scope.

Theorem C23_ptw_unknown_length : forall S (M : model S) A okh okw Inv,
  steps M A okh okw Inv -> forall mk, (forall t, Inv (mk t)) -> forall m evs,
  Forall (ok_event A okh okw) evs ->
  exists s l, feed (fun t => ptw_update M m (mk t)) 0 (ptw_init m (mk 0%nat)) evs = Ok (s, l) /\
    - ln (ptw_prob M mk m (levels m (length evs)) 0 evs) -
        INR (pred (levels m (length evs))) * ln 2 <= - l <=
    - ln (ptw_prob M mk m (levels m (length evs)) 0 evs) +
        INR (pred (levels m (length evs))) * ln (3 / 2).
Proof. exact @ptw_unknown_length. Qed.
Print Assumptions C23_ptw_unknown_length.
Example C23_ex : levels 1 100 = 6%nat /\ levels 0 1 = 0%nat.
Proof. split; reflexivity. Qed.
