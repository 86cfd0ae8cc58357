(** What is asked of an implementation of floating-point numbers. Binary64 with rounding to nearest and
    a mathematical library with errors of about one unit in the last place meets it with u = 2^-52,
    big = 2^1000 and max = 2^53: overflow is excluded by [big]; exp may underflow. *)
From Verif Require Export Model.Floats.
Open Scope R_scope.

Record accurate (F : floats) (u big : R) (max : nat) : Prop := Accurate {
  (** a relative error of at most [u] as long as nothing overflows *)
  acc_add : forall x y, Rabs (x + y) <= big -> Rabs (f_add F x y - (x + y)) <= u * Rabs (x + y);
  acc_sub : forall x y, Rabs (x - y) <= big -> Rabs (f_sub F x y - (x - y)) <= u * Rabs (x - y);
  (** quotients of halves of natural numbers *)
  acc_div : forall j k, (0 < j <= max)%nat -> (0 < k <= max)%nat ->
    Rabs (f_div F (INR j / 2) (INR k / 2) - INR j / INR k) <= u * (INR j / INR k);
  (** halves of natural numbers are added exactly *)
  acc_half : forall j k, (j + k <= max)%nat -> f_add F (INR j / 2) (INR k / 2) = INR (j + k) / 2;
  (** at most 0, the exponential may underflow *)
  acc_exp : forall x, x <= 0 -> 0 <= f_exp F x /\ Rabs (f_exp F x - exp x) <= u;
  acc_log : forall x, 0 < x -> Rabs (f_log F x - ln x) <= u * (1 + Rabs (ln x)) }.

(** An arithmetic that rounds: every result is cut off after [p] binary digits behind the leading one
    (rounding down). Exponents are not limited. *)
Definition expo (x : R) : Z := (up (ln (Rabs x) / ln 2) - 1)%Z.
Definition chop (p : Z) (x : R) : R :=
  if Req_EM_T x 0 then 0 else let s := powerRZ 2 (expo x - p) in s * IZR (up (x / s) - 1).
Definition chopped (p : Z) : floats :=
  Floats (fun x y => chop p (x + y)) (fun x y => chop p (x - y)) (fun x y => chop p (x / y))
         (fun x => chop p (exp x)) (fun x => chop p (ln x)).

(** What is lost per unit of rounding error in [n] updates. *)
Definition allowance (n : nat) : R := 4 * (INR n * ln (2 * INR n + 2) + 2) + 22.

(** A base model computed with rounding, [M1], follows the exact one, [M2], for [N] steps: each value
    returned differs by at most [eps]; the exact values sum to between -(n L + c) and 0 after [n] steps.
    [close n x y b]: the states after [n] steps, and the sum. *)
Record tracks {S1 S2} (M1 : model S1) (M2 : model S2) (fresh1 : S1) (fresh2 : S2) (ok : Z -> list Z -> Prop)
  (N : nat) (eps L c : R) (close : nat -> S1 -> S2 -> R -> Prop) : Prop := Tracks {
  tr_new : close 0%nat fresh1 fresh2 0;
  tr_size : forall n x y b, close n x y b -> (n <= N)%nat -> - (INR n * L + c) <= b <= 0;
  tr_step : forall n x y b a h, close n x y b -> (S n <= N)%nat -> ok a h ->
    exists x' y' lx ly, m_update M1 x a h 1 = Ok (x', lx) /\ m_update M2 y a h 1 = Ok (y', ly) /\
      Rabs (lx - ly) <= eps /\ close (S n) x' y' (b + ly) }.

(** The events of a run over [s] after [h] are all allowed. *)
Fixpoint ok_run (ok : Z -> list Z -> Prop) (h s : list Z) : Prop :=
  match s with [] => True | a :: s' => ok a h /\ ok_run ok (h ++ [a]) s' end.

(** PTW over such a base: the size of the numbers in [n] updates, and what is lost in each. *)
Definition ptw_size (n : nat) (L c : R) : R := 4 * INR n * (L + c + 2) + 8.
Definition ptw_loss (u : R) (n : nat) (L c eps : R) : R := u * (3 * ptw_size n L c + 20) + eps.
(** The largest surprise of the KT estimator in [n] updates. *)
Definition kt_most (n : nat) : R := ln (2 * INR n + 2).
