(** C25: min_partition_length is rounded to a power of two, downwards. *)
From Verif Require Import Model.PTW Proofs.PTWPredict Proofs.PTWProps.

Theorem C25_rounds_down : forall n, (0 < n)%nat ->
  (2 ^ min_height_of n <= n < 2 ^ S (min_height_of n))%nat.
Proof. exact min_height_down. Qed.
Print Assumptions C25_rounds_down.
Example C25_ex : min_height_of 20 = 4%nat.
Proof. reflexivity. Qed.

(** Powers of two are respected exactly (what remains of the documented rounding up). *)
Theorem C25_power_of_two_partial : forall k, min_height_of (2 ^ k) = k.
Proof. exact min_height_pow. Qed.
Print Assumptions C25_power_of_two_partial.

(** The documentation promises rounding up: partitions of length >= min_partition_length. *)
Theorem C25_rounds_up_refuted : exists n, (0 < n)%nat /\ (2 ^ min_height_of n < n)%nat.
Proof. exact min_partition_refuted. Qed.
Print Assumptions C25_rounds_up_refuted.
