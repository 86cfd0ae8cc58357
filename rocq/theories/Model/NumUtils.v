(** Numerical helpers of utilities.py: get_bin_index, log_sum_exp, mscb, argmax, bin_data; ctw.logsumexp. *)
From Coq Require Import R_Ifp.
From Verif Require Export Model.Float Model.Helpers.
Open Scope R_scope.

(** utilities.py:146-157: the loop is over [bin_bounds], which is not defined anywhere. *)
Definition get_bin_index (signal : R) (bins : list R) : result Z := Err NameError.

(** utilities.py:160-176; numpy's [log] does not raise, its argument is at least 1 here *)
Definition u_log_sum_exp (v : list R) : result R :=
  do m <- py_max v;
  Ok (m + ln (Rsum (map exp (map (fun x => x - m) v)))).

(** ctw.py:7-9 *)
Definition ctw_logsumexp (vals : list R) : result R :=
  do shift <- py_max vals;
  do l <- py_log (Rsum (map (fun v => exp (v - shift)) vals));
  Ok (shift + l).

(** utilities.py:184-198. [log2] is numpy's, which rounds; [int] cuts off the fraction. *)
Definition u_mscb (log2 : Z -> R) (t : Z) : Z :=
  let x := log2 (Z.lxor t (t + 1)) in
  if Rle_dec 0 x then Int_part x else (- Int_part (- x))%Z.

(** utilities.py:221-224; [pick] is the random index drawn by np.random.choice, taken modulo the number of candidates *)
Definition positions (values : list R) (mx : R) : list nat :=
  filter (fun i => match nth_error values i with Some x => if Req_EM_T x mx then true else false | None => false end)
         (seq 0 (length values)).
Definition u_argmax (values : list R) (pick : nat) : result nat :=
  do mx <- py_max values;
  let val := positions values mx in
  match nth_error val (pick mod length val) with Some i => Ok i | None => Err ValueError end.

(** utilities.py:1087: [cut n i] is entry i of [np.linspace(0, 100, n+1, True).astype(np.int)]; the
    entries of linspace are rounded. A negative number of entries raises ValueError. *)
Definition bin_slices (cut : Z -> Z -> Z) (num_bins : Z) : result (list Z) :=
  if (num_bins + 1 <? 0)%Z then Err ValueError
  else Ok (map (fun i => cut num_bins (Z.of_nat i)) (seq 0 (Z.to_nat (num_bins + 1)))).

(** [np.diff] *)
Fixpoint diff (l : list Z) : list Z :=
  match l with
  | x :: (y :: _) as l' => (y - x)%Z :: diff l'
  | _ => []
  end.

(** [np.add.reduceat(data, ix)]: for each index the sum from it to the next index (only the element
    itself if the next is not greater), from the last one to the end; IndexError for an index that is
    negative or not below the length. *)
Definition in_bounds (data : list R) (ix : list Z) : bool :=
  forallb (fun i => (0 <=? i) && (i <? Z.of_nat (length data)))%Z ix.
Fixpoint segments (data : list R) (ix : list Z) : list R :=
  match ix with
  | [] => []
  | [i] => [Rsum (skipn (Z.to_nat i) data)]
  | i :: (j :: _) as ix' =>
      (if (i <? j)%Z then Rsum (firstn (Z.to_nat (j - i)) (skipn (Z.to_nat i) data)) else nth (Z.to_nat i) data 0) :: segments data ix'
  end.
Definition reduceat (data : list R) (ix : list Z) : result (list R) :=
  if in_bounds data ix then Ok (segments data ix) else Err IndexError.

(** [/ counts]: division by zero gives inf or nan, here None. *)
Definition over (x : R) (c : Z) : option R := if (c =? 0)%Z then None else Some (x / IZR c).

(** utilities.py:1081-1091 *)
Definition bin_data (cut : Z -> Z -> Z) (data : list R) (num_bins : Z) : result (list (option R)) :=
  do slices <- bin_slices cut num_bins;
  let counts := diff slices in
  do sums <- reduceat data (removelast slices);
  Ok (map (fun p => over (fst p) (snd p)) (combine sums counts)).
