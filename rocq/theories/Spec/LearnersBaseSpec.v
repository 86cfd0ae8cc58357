(** The probability of a sequence under a rule that predicts from what was seen. *)
From Verif Require Export Model.LearnersBase Spec.KTSpec Spec.PTWSpec.
Open Scope R_scope.

Fixpoint seq_of (p : list event -> Z -> R) (past : list event) (xs : list Z) : R :=
  match xs with
  | [] => 1
  | x :: xs' => p past x * seq_of p (past ++ [Event x [] 1]) xs'
  end.
