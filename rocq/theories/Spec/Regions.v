(** Maximal runs of a label in a sequence whose first position is [start]. *)
From Coq Require Import List ZArith.
Open Scope Z_scope.

(** the label at a position *)
Definition label_at {A} (start : Z) (labels : list A) (i : Z) : option A :=
  if i <? start then None else nth_error labels (Z.to_nat (i - start)).

(** positions [a], ..., [b - 1] all carry [c], and neither neighbour does *)
Definition maximal_run {A} (start : Z) (labels : list A) (c : A) (a b : Z) : Prop :=
  a < b /\ (forall i, a <= i < b -> label_at start labels i = Some c) /\
  label_at start labels (a - 1) <> Some c /\ label_at start labels b <> Some c.
