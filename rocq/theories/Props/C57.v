(** C57: numbers at the end of names. *)
From Verif Require Import Model.UtilNames Proofs.UtilNamesFacts.
Open Scope Z_scope.

Theorem C57_number : forall (F : Type) (float_of : pystr -> option F) uni s n width, 0 <= n ->
  split_number float_of uni (join_number s n width) = (s, Some (inl n)).
Proof. exact @number_round. Qed.
Print Assumptions C57_number.
Example C57_ex : join_number (lit "raw-data.txt") 10 (Some 3%nat) = lit "raw-data.txt-010".
Proof. reflexivity. Qed.

(** A negative number comes back positive, and its sign ends up in the name. *)
Theorem C57_negative_refuted : forall (F : Type) (float_of : pystr -> option F) uni s n, n < 0 ->
  split_number float_of uni (join_number s n None) = (s ++ [dash], Some (inl (- n))).
Proof. exact @number_negative. Qed.
Print Assumptions C57_negative_refuted.
