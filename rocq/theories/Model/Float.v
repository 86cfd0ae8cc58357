(** The parts of Python's [float] and [math] used by the models, over the real numbers.
    Rounding, overflow and underflow are not modelled (see DESIGN.md). *)
From Coq Require Export Reals.
From Verif Require Export Model.Py.
Open Scope R_scope.

(** [math.log(x)]: ValueError ("math domain error") unless x > 0. *)
Definition py_log (x : R) : result R :=
  if Rlt_dec 0 x then Ok (ln x) else Err ValueError.

(** [x / y]: ZeroDivisionError if y = 0. *)
Definition py_div (x y : R) : result R :=
  if Req_EM_T y 0 then Err ZeroDivisionError else Ok (x / y).

(** [sum(l)] *)
Definition Rsum (l : list R) : R := fold_left Rplus l 0.

(** [max(l)]: ValueError on an empty sequence. *)
Definition py_max (l : list R) : result R :=
  match l with
  | [] => Err ValueError
  | x :: l' => Ok (fold_left (fun m v => if Rlt_dec m v then v else m) l' x)
  end.

(** [min(a, b)]: returns the first argument on a tie. *)
Definition py_min2 (a b : R) : R := if Rlt_dec b a then b else a.

(** model.py:3 *)
Definition log_0_5 : R := ln (/ 2).

(** model.py:6-8 *)
Definition logsumexp (vals : list R) : result R :=
  do shift <- py_max vals;
  do l <- py_log (Rsum (map (fun v => exp (v - shift)) vals));
  Ok (shift + l).

(** model.py:10-14. The argument of [math.log] is at least 1, so it cannot raise;
    the model calls [ln] directly. *)
Definition logsumexp2 (v1 v2 : R) : R :=
  if Rlt_dec v1 v2
  then v2 + ln (1 + exp (v1 - v2))
  else v1 + ln (1 + exp (v2 - v1)).

(** helpers.py:89-104 ([np.array(args) - m] is taken elementwise; numpy's [log] does not
    raise, its argument is at least 1 here). *)
Definition h_log_sum_exp (args : list R) : result R :=
  do m <- py_max args;
  Ok (m + ln (Rsum (map exp (map (fun v => v - m) args)))).

(** modelfast.py:37-44 (C) *)
Definition c_logsumexp2 (a b : R) : R :=
  if Rlt_dec b a then ln (1 + exp (b - a)) + a else ln (1 + exp (a - b)) + b.

(** modelfast.py:46-61 (C); reading [a[0]] of an empty array is out of bounds. *)
Definition c_logsumexp (a : list R) : result R :=
  match a with
  | [] => Err IndexError
  | x :: a' =>
      let shift := fold_left (fun shift v => if Rlt_dec shift v then v else shift) a' x in
      Ok (ln (fold_left (fun rv v => rv + exp (v - shift)) a 0) + shift)
  end.
