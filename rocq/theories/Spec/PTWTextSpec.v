(** The blocks that n steps make up. *)
From Coq Require Export Sorted.
From Verif Require Export Model.PTWText Spec.PTWSpec Spec.Prob.
Open Scope Z_scope.

Definition size (ls : list nat) : Z := fold_right (fun l n => 2 ^ Z.of_nat l + n) 0 ls.
(** blocks of decreasing sizes, powers of two, one after the other *)
Definition blocks (ls : list nat) (n : Z) : Prop := StronglySorted (fun a b => (b < a)%nat) ls /\ size ls = n.
(** where they start *)
Fixpoint starts (from : Z) (ls : list nat) : list Z :=
  match ls with
  | [] => []
  | l :: ls' => from :: starts (from + 2 ^ Z.of_nat l) ls'
  end.
(** every prediction is less than certain *)
Definition uncertain {S} (M : model S) (A : list Z) (Inv : S -> Prop) : Prop :=
  forall m a l, Inv m -> In a A -> m_logp M m a [] = Ok l -> (l < 0)%R.
