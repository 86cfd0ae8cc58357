(** Memoryless sources over any alphabet, and the number of different symbols. *)
From Verif Require Export Spec.KTSpec.
Open Scope R_scope.

Definition source_prob (theta : Z -> R) (xs : list Z) : R := fold_right (fun x p => theta x * p) 1 xs.
Definition is_source (A : list Z) (theta : Z -> R) : Prop := (forall a, In a A -> 0 <= theta a) /\ Rsum (map theta A) <= 1.
Definition used (xs : list Z) : nat := length (nodup Z.eq_dec xs).
