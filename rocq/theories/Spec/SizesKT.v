(** The number of nodes that a CTW_KT refers to. *)
From Verif Require Export Spec.Sizes.

Fixpoint knodes (n : knode) : nat :=
  let '(KNode _ _ _ _ _ ch0 ch1) := n in
  (1 + (match ch0 with None => 0 | Some c => knodes c end + match ch1 with None => 0 | Some c => knodes c end))%nat.
