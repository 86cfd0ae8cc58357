(** C53: approximate equality. *)
From Coq Require Import Lra.
From Verif Require Import Model.Signals Proofs.SignalFacts.
Open Scope R_scope.

Theorem C53_all_approx : forall (l1 l2 : list R) (m : R),
  all_approx l1 l2 m = true <-> Forall2 (fun x y => Rabs (x - y) <= m * / 2 ^ 52) l1 l2.
Proof. exact all_approx_spec. Qed.
Print Assumptions C53_all_approx.
Example C53_ex : Forall2 (fun x y => Rabs (x - y) <= 4 * / 2 ^ 52) [1; 2] [1; 2].
Proof.
  assert (0 < / 2 ^ 52) by (apply Rinv_0_lt_compat, pow_lt; lra).
  repeat constructor; rewrite Rminus_diag_eq, Rabs_R0 by reflexivity; lra.
Qed.

(** helpers.approx with a precision: less than one unit of that decimal. *)
Theorem C53_precision : forall (num1 num2 m : R) (p : Z), p <> 0%Z ->
  helpers_approx num1 num2 m p = true <-> Rabs (num1 - num2) < powerRZ 10 (- p).
Proof. exact approx_precision. Qed.
Print Assumptions C53_precision.

(** utilities.approx has the sign of the exponent wrong. *)
Theorem C53_precision_refuted : exists num1 num2 p, (0 < p)%Z /\
  powerRZ 10 (- p) < Rabs (num1 - num2) /\ utilities_approx num1 num2 4 p = true.
Proof. exact approx_wrong_sign. Qed.
Print Assumptions C53_precision_refuted.
