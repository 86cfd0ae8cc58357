(** Signal processing: utilities.py:26-145, 236-250 and features.py:46-104. numpy arrays of floats
    are lists of reals. *)
From Verif Require Export Model.Float.
Open Scope R_scope.

(** [l[i:j]] *)
Definition slice {A} (l : list A) (i j : Z) : list A :=
  skipn (slice_start l i) (firstn (slice_start l j) l).

(** utilities.py:134-137, features.py:95-98: the undiscounted case. [i+horizon] raises TypeError
    when there is no horizon. *)
Definition windowed_sum (r : list R) (horizon : option Z) (i : nat) : result R :=
  match horizon with
  | None => Err TypeError
  | Some h =>
      let i := Z.of_nat i in
      Ok (Rsum (slice r i (Z.min (i + h) (Z.of_nat (length r)))))
  end.

(** utilities.py:141-142, features.py:102-103: the loop for [range(l-2, -1, -1)]; the argument is
    the number of entries still to fill. *)
Fixpoint return_loop (r : list R) (gamma : R) (todo : nat) (ret : list R) : result (list R) :=
  match todo with
  | O => Ok ret
  | S i =>
      do ri <- py_get r (Z.of_nat i);
      do next <- py_get ret (Z.of_nat i + 1);
      do ret <- py_set ret (Z.of_nat i) (ri + gamma * next);
      return_loop r gamma i ret
  end.

(** utilities.py:105-143, features.py:65-104. The test [gamma is np.nan] of features.py has no
    counterpart: the reals have no NaN. *)
Definition calculate_return (r : list R) (gamma : option R) (horizon : option Z)
  : result (list R) :=
  let l := length r in
  match r with
  | [] => Ok []
  | _ =>
      match (match gamma with None => None | Some g => if Rle_dec 1 g then None else Some g end) with
      | None => mapM (windowed_sum r horizon) (seq 0 l)
      | Some g =>
          do last <- py_get r (Z.of_nat l - 1);
          do ret <- py_set (repeat 0 l) (Z.of_nat l - 1) last;
          return_loop r g (l - 1) ret
      end
  end.

(** utilities.py:99-102; the arguments are the entries to come and the last decayed value *)
Fixpoint trace_loop (trace max_value : R) (replacing : bool) (prev : R) (f : list R) : list R :=
  match f with
  | [] => []
  | x :: f' =>
      let d := x + trace * prev in
      let d := if replacing then py_min2 d max_value else d in
      d :: trace_loop trace max_value replacing d f'
  end.

(** utilities.py:94-103 *)
Definition decay_trace (f : list R) (trace : R) (replacing_traces : bool) : result (list R) :=
  do max_value <- py_max f;
  match f with
  | [] => Err ValueError
  | x :: f' => Ok (x :: trace_loop trace max_value replacing_traces x f')
  end.

(** [np.convolve(a, v)]: the full convolution; ValueError on an empty argument *)
Definition np_convolve (a v : list R) : result (list R) :=
  match a, v with
  | [], _ | _, [] => Err ValueError
  | _, _ =>
      Ok (map (fun k => Rsum (map (fun j => nth j a 0 * (if (k - j <? length v)%nat then
                                     if (j <=? k)%nat then nth (k - j) v 0 else 0 else 0))
                               (seq 0 (length a))))
            (seq 0 (length a + length v - 1)))
  end.

(** utilities.py:236-248, features.py:46-58. [np.ones] raises ValueError on a negative length. *)
Definition running_mean (data : list R) (n : Z) : result (list R) :=
  if (n <? 0)%Z then Err ValueError
  else
    do c <- np_convolve data (map (fun x => x / IZR n) (repeat 1 (Z.to_nat n)));
    Ok (slice c (n - 1) (- (n - 1))).

(** [np.clip(x, 0, cap)] *)
Definition clip (cap x : R) : R := Rmin (Rmax x 0) cap.

Definition py_min (l : list R) : result R :=
  match l with
  | [] => Err ValueError
  | x :: l' => Ok (fold_left (fun m v => if Rlt_dec v m then v else m) l' x)
  end.

(** utilities.py:73-85. [cap_values] of None is the cap 0: both are false. *)
Definition scale_features (f : list R) (mn mx : option R) (cap_values : R) : result (list R) :=
  do mn <- match mn with None => py_min f | Some x => Ok x end;
  do mx <- match mx with None => py_max f | Some x => Ok x end;
  if Req_EM_T (mx - mn) 0 then Ok f
  else
    let f := map (fun x => (x - mn) / (mx - mn)) f in
    Ok (if Req_EM_T cap_values 0 then f else map (clip cap_values) f).

(** utilities.py:87-91 *)
Definition scale_val (val : R) (rng : R * R) (cap_values : R) : result R :=
  do val <- py_div (val - fst rng) (snd rng - fst rng);
  Ok (if Req_EM_T cap_values 0 then val else clip cap_values val).

(** utilities.py:226-233; a missing decay is the decay 0 *)
Definition calc_alpha_init (alpha decay : R) : R :=
  if Rle_dec decay 0 then alpha else alpha * decay.

(** [np.spacing(1)] *)
Definition spacing1 : R := / 2 ^ 52.

(** helpers.py:576-594; [precision] of None is 0 *)
Definition helpers_approx (num1 num2 m : R) (precision : Z) : bool :=
  if (precision =? 0)%Z then if Rle_dec (Rabs (num1 - num2)) (m * spacing1) then true else false
  else if Rlt_dec (Rabs (num1 - num2)) (powerRZ 10 (- precision)) then true else false.

(** utilities.py:26-39 *)
Definition utilities_approx (num1 num2 m : R) (precision : Z) : bool :=
  if (precision =? 0)%Z then if Rle_dec (Rabs (num1 - num2)) (m * spacing1) then true else false
  else if Rle_dec (Rabs (num1 - num2)) (powerRZ 10 precision) then true else false.

(** helpers.py:617-622, utilities.py:63-68: the loop from index [i] *)
Fixpoint all_approx_loop (l1 l2 : list R) (m : R) : bool :=
  match l1, l2 with
  | x :: l1', y :: l2' => if helpers_approx x y m 0 then all_approx_loop l1' l2' m else false
  | _, _ => true
  end.

(** helpers.py:596-622, utilities.py:43-68 *)
Definition all_approx (l1 l2 : list R) (m : R) : bool :=
  if (length l1 =? length l2)%nat then all_approx_loop l1 l2 m else false.
