(** Terms for C47. *)
From Coq Require Import Sorting.Sorted.
From Verif Require Export Model.Py.
Open Scope Z_scope.

(** [out] is the list of the rows of [data] with the given numbers. *)
Definition rows_at {A} (data : list A) (rows : list Z) (out : list A) : Prop :=
  Forall2 (fun i x => 0 <= i /\ nth_error data (Z.to_nat i) = Some x) rows out.

(** at least [gap] other rows lie between row [i] and row [j] *)
Definition apart (gap i j : Z) : Prop := gap < j - i \/ gap < i - j.

(** [i] lies in one of the sequences of [nsample] rows that are separated by [gap] rows, start
    after the first [gap] rows and end more than [gap] rows before the end of the [n] rows. *)
Definition in_block (gap nsample n i : Z) : Prop :=
  exists k, 0 <= k /\ gap + k * (gap + nsample) < n - (gap + nsample) /\
    gap + k * (gap + nsample) <= i < gap + k * (gap + nsample) + nsample.
