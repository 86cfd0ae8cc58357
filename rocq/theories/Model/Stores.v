(** model.py:692-793: LogStore and LogStoreUniform; learners.py's LogStore. *)
From Verif Require Export Model.Py.

Section stores.
  Context {A : Type}.

  (** ** LogStore (model.py:692-742): [_items] and [_save] side by side. *)
  Definition logstore := list (A * bool).

  (** model.py:710-712 *)
  Definition ls_init : logstore := [].

  (** model.py:733-742, the loop over the slots; falling off the end appends. On an empty
      store this is also what lines 728-730 do. *)
  Fixpoint ls_add (s : logstore) (x : A) : logstore :=
    match s with
    | [] => [(x, true)]
    | (y, true) :: s' => (x, false) :: ls_add s' y
    | (y, false) :: s' => (x, true) :: s'
    end.

  (** model.py:717-719 *)
  Definition ls_iter (s : logstore) : list A := map fst s.

  (** model.py:721-722 *)
  Definition ls_getitem (s : logstore) (i : Z) : result A := py_get (ls_iter s) i.

  (** ** LogStoreUniform (model.py:745-793) *)
  Record ustore := UStore { us_items : list A; us_gap : Z; us_remove : Z; us_skip : Z }.

  (** model.py:762-766 *)
  Definition us_init : ustore := UStore [] 1 (-1) 0.

  (** model.py:781-793 (and 778-779); [x] is the value of the thunk. The last component
      tells whether the thunk was called. *)
  Definition us_lazy_add (s : ustore) (x : A) : result (ustore * bool) :=
    if negb (us_skip s =? 0) then
      Ok (UStore (us_items s) (us_gap s) (us_remove s) (us_skip s - 1), false)
    else
      let items1 := us_items s ++ [x] in
      do items2 <- (if 0 <? us_remove s then py_del items1 (us_remove s) else Ok items1);
      let r := us_remove s + 1 in
      let '(gap, r') := if r >=? Z.of_nat (length items2) then (us_gap s * 2, 0)
                        else (us_gap s, r) in
      Ok (UStore items2 gap r' (gap - 1), true).

  Definition us_add (s : ustore) (x : A) : result ustore :=
    do (s', _) <- us_lazy_add s x; Ok s'.

  (** model.py:771-773 *)
  Definition us_iter (s : ustore) : list A := rev (us_items s).

  (** model.py:775-776 *)
  Definition us_getitem (s : ustore) (i : Z) : result A :=
    py_get (us_items s) (Z.of_nat (length (us_items s)) - i - 1).
End stores.
Arguments logstore A : clear implicits.
Arguments ustore A : clear implicits.

(** ** learners.LogStore (learners.py:60-102): [_items] and [t]. *)
From Verif Require Import Model.Helpers.
Section learners_store.
  Context {A : Type}.
  Record lstore := LStore { lst_items : list A; lst_t : Z }.

  (** learners.py:65-67 *)
  Definition lst_init : lstore := LStore [] 0.

  (** learners.py:98-102: [pop] of a missing index raises IndexError, which is suppressed;
      [mscb] is non-negative here, so the index never counts from the end. *)
  Definition lst_add (s : lstore) (x : A) : lstore :=
    let items := match py_del (lst_items s) (mscb (lst_t s)) with
                 | Ok l => l
                 | Err _ => lst_items s
                 end in
    LStore (x :: items) (lst_t s + 1).
End learners_store.
Arguments lstore A : clear implicits.

(** A run of [add] calls on a LogStoreUniform. *)
Fixpoint us_adds {A} (s : ustore A) (xs : list A) : result (ustore A) :=
  match xs with
  | [] => Ok s
  | x :: xs' => do s' <- us_add s x; us_adds s' xs'
  end.
