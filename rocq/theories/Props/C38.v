(** C38: the binary time helpers. *)
From Verif Require Import Model.Helpers Proofs.HelpersFacts.
Open Scope Z_scope.

Theorem C38_binary_boundary : forall t d, 0 <= d ->
  (2 ^ d | binary_boundary t d) /\ binary_boundary t d <= t /\
  forall b, (2 ^ d | b) -> b <= t -> b <= binary_boundary t d.
Proof. exact boundary_spec. Qed.
Print Assumptions C38_binary_boundary.
Example C38_ex_boundary : binary_boundary 11 2 = 8 /\ binary_boundary 16 4 = 16.
Proof. split; reflexivity. Qed.

Theorem C38_mscb_divides : forall t, 0 <= t -> (2 ^ mscb t | t + 1) /\ ~ (2 ^ (mscb t + 1) | t + 1).
Proof. exact mscb_spec. Qed.
Print Assumptions C38_mscb_divides.

Theorem C38_mscb_highest_change : forall t, 0 <= t ->
  Z.testbit t (mscb t) <> Z.testbit (t + 1) (mscb t) /\
  forall k, mscb t < k -> Z.testbit t k = Z.testbit (t + 1) k.
Proof. exact mscb_highest. Qed.
Print Assumptions C38_mscb_highest_change.
Example C38_ex_mscb : mscb 7 = 3 /\ mscb 8 = 0 /\ mscb 11 = 2.
Proof. repeat split; reflexivity. Qed.

Theorem C38_at_partition_start : forall t d, 0 <= d ->
  at_partition_start t d = true <-> binary_boundary t d = t.
Proof. exact start_spec. Qed.
Print Assumptions C38_at_partition_start.

Theorem C38_start_and_mscb : forall t d, 0 <= t -> 0 <= d ->
  at_partition_start (t + 1) d = true <-> d <= mscb t.
Proof. exact start_mscb. Qed.
Print Assumptions C38_start_and_mscb.
Example C38_ex_start : at_partition_start 8 3 = true /\ at_partition_start 8 4 = false.
Proof. split; reflexivity. Qed.
