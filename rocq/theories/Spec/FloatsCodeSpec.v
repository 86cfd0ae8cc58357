(** Notions for the size of the arithmetic code when floats round. *)
From Verif Require Export Spec.FloatsACSpec Spec.FloatsFMNSpec.
Open Scope R_scope.

(** The product of [x], at least 1, and a number from 0 to 1 is off by at most [u] times [x]. (A relative error
    of at most [u] or an underflow.) *)
Definition multiplies (mul : R -> R -> R) (u top : R) : Prop :=
  forall x y, 1 <= x <= top -> 0 <= y <= 1 -> Rabs (mul x y - x * y) <= u * x.

(** Updated with [bits] one after the other, the model succeeds, and the probabilities it returns stay away
    from 0 and 1 by [d]. *)
Fixpoint undecided {S} (M : model S) (d : R) (m : S) (bits : list Z) : Prop :=
  match bits with
  | [] => True
  | b :: bits' => is_bit b /\ exists m' l, m_update M m b [] 1 = Ok (m', l) /\ d <= exp l <= 1 - d /\ undecided M d m' bits'
  end.

(** Nats lost per symbol in splitting the interval. *)
Definition split_loss (u d : R) : R := 4 * u / (d - 4 * u).
