(** Logarithms to base 2, numbers with 53 bits, and what the entries of linspace may be. *)
From Coq Require Export Reals ZArith List.
Export ListNotations.
Open Scope R_scope.

Definition Rlog2 (x : R) : R := ln x / ln 2.

(** Within the relative error [u]. *)
Definition log2_within (u : R) (f : Z -> R) : Prop :=
  forall x, (0 < x)%Z -> Rabs (f x - Rlog2 (IZR x)) <= u * Rabs (Rlog2 (IZR x)).

(** The doubles (without bounds for the exponent), and rounding to a nearest one. *)
Definition double (x : R) : Prop := exists m e : Z, (Z.abs m < 2 ^ 53)%Z /\ x = IZR m * powerRZ 2 e.
Definition log2_nearest (f : Z -> R) : Prop :=
  forall x, (0 < x)%Z -> double (f x) /\ forall y, double y -> Rabs (f x - Rlog2 (IZR x)) <= Rabs (y - Rlog2 (IZR x)).

(** [cut n i]: 100 i / n rounded to a double, then cut to an integer; the ends are exact. *)
Definition cuts_ok (n : Z) (cut : Z -> Z) : Prop :=
  cut 0%Z = 0%Z /\ cut n = 100%Z /\
  (forall i, 0 <= i < n -> cut i <= cut (i + 1))%Z /\
  (forall i, 0 < i < n -> 100 * i / n - 1 <= cut i <= 100 * i / n)%Z.

Definition mean (l : list R) : R := fold_left Rplus l 0 / IZR (Z.of_nat (length l)).

(** The highest bit that changes when t is incremented. *)
Definition changes_up_to (t m : Z) : Prop := (0 <= m)%Z /\ (2 ^ m | t + 1)%Z /\ ~ (2 ^ (m + 1) | t + 1)%Z.
