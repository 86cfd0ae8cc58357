(** Notions for the rounding errors of KT over any alphabet and of CTW over any base model. *)
From Verif Require Export Spec.FloatsFMNSpec Model.FloatsAny.
Open Scope R_scope.

(** Quotients of positive numbers which are neither tiny nor greater than 2 have a relative error of at most [u]. *)
Definition divides (F : floats) (u tiny : R) : Prop :=
  forall x y, 0 < x -> 0 < y -> tiny <= x / y <= 2 -> Rabs (f_div F x y - x / y) <= u * (x / y).

(** The largest surprise of KT over [k] symbols in [n] updates, and how far a value may be off. *)
Definition kt_worst (k n : nat) : R := ln (INR k * INR n).
Definition kt_off (u : R) (k n : nat) : R := u * (kt_worst k n + 16 * INR n + 8 * INR k + 12).

(** CTW over a base model: the size of the numbers in [n] updates; what is lost per update; how far a value may be off. *)
Definition ctw_room (n : nat) (L : R) : R := 4 * (INR n * L + 2) + 22.
Definition ctw_drift (u : R) (n d : nat) (L eps : R) : R := eps + INR (S d) * (u * ctw_room n L).
Definition ctw_off (u : R) (n d : nat) (L eps : R) : R := 2 * INR n * ctw_drift u n (S d) L eps.

(** Histories over the symbols [K] which the base model admits. *)
Definition okctx (okh : list Z -> Prop) (K h : list Z) : Prop := okh h /\ incl h K.

(** The numbers do not grow too large and the errors stay small: [N] updates of CTW of depth [D] over KT over [k] symbols. *)
Definition roomy (u big tiny : R) (k D N : nat) : Prop :=
  32 * (INR N + INR k) * u <= 1 /\ tiny <= / (2 * INR k * INR N) /\ 2 * INR N + 4 <= big /\
  ctw_room N (kt_worst k N) <= big /\ INR N * ctw_drift u N D (kt_worst k N) (kt_off u k N) <= 1.
