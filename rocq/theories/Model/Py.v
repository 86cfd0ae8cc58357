(** Python run-time notions used by the models: exceptions as values, lists with
    Python indexing and slicing, dictionaries with insertion order. *)
From Coq Require Export List ZArith Lia Bool.
Export ListNotations.
Open Scope Z_scope.

(** The exceptions the modelled functions can raise. [UseAfterFree] and [OutOfBounds] stand for
    undefined behaviour of C code (modelfast.py). [OSError] includes FileNotFoundError, [NameError]
    UnboundLocalError; [GeneralException] is the class Exception itself. [OutOfFuel] is not a Python
    exception: it marks a loop cut off by the model (excluded by the theorems). *)
Inductive exn :=
| KeyError | IndexError | ValueError | ZeroDivisionError | TypeError
| NotImplementedError | AttributeError | NameError | FileExistsError
| AssertionError | StopIteration | OSError | OverflowError | SystemExit | ArgumentError | ParameterException | GeneralException | UseAfterFree | OutOfBounds | OutOfFuel.

Inductive result (A : Type) := Ok (a : A) | Err (e : exn).
Arguments Ok {A} a.
Arguments Err {A} e.

Definition bind {A B} (x : result A) (f : A -> result B) : result B :=
  match x with Ok a => f a | Err e => Err e end.

Notation "'do' x <- e ; f" := (bind e (fun x => f))
  (at level 200, x pattern, e at level 100, f at level 200, right associativity).

Definition is_ok {A} (x : result A) : Prop := exists a, x = Ok a.

(** [mapM f l] : a comprehension [[f(x) for x in l]] whose body may raise. *)
Fixpoint mapM {A B} (f : A -> result B) (l : list A) : result (list B) :=
  match l with
  | [] => Ok []
  | x :: l' => do y <- f x; do ys <- mapM f l'; Ok (y :: ys)
  end.

(** Python list indexing [l[i]]: negative indices count from the end. *)
Definition py_index {A} (l : list A) (i : Z) : result nat :=
  let n := Z.of_nat (length l) in
  let j := if i <? 0 then i + n else i in
  if (0 <=? j) && (j <? n) then Ok (Z.to_nat j) else Err IndexError.

Definition py_get {A} (l : list A) (i : Z) : result A :=
  do k <- py_index l i;
  match nth_error l k with Some x => Ok x | None => Err IndexError end.

Fixpoint list_set {A} (l : list A) (k : nat) (x : A) : list A :=
  match l, k with
  | [], _ => []
  | _ :: l', O => x :: l'
  | y :: l', S k' => y :: list_set l' k' x
  end.

Definition py_set {A} (l : list A) (i : Z) (x : A) : result (list A) :=
  do k <- py_index l i; Ok (list_set l k x).

Fixpoint list_del {A} (l : list A) (k : nat) : list A :=
  match l, k with
  | [], _ => []
  | _ :: l', O => l'
  | y :: l', S k' => y :: list_del l' k'
  end.

(** [del l[i]] *)
Definition py_del {A} (l : list A) (i : Z) : result (list A) :=
  do k <- py_index l i; Ok (list_del l k).

(** The start position that the slice [l[i:]] denotes. *)
Definition slice_start {A} (l : list A) (i : Z) : nat :=
  let n := Z.of_nat (length l) in
  if i <? 0 then Z.to_nat (Z.max 0 (i + n)) else Z.to_nat (Z.min i n).

(** [l[i:]] *)
Definition slice_from {A} (l : list A) (i : Z) : list A := skipn (slice_start l i) l.

(** [l[:i]] *)
Definition slice_to {A} (l : list A) (i : Z) : list A := firstn (slice_start l i) l.

(** [l[i:] = []] *)
Definition slice_clear_from {A} (l : list A) (i : Z) : list A := firstn (slice_start l i) l.

(** [[x] * k] : a negative count gives the empty list. *)
Definition py_repeat {A} (x : A) (k : Z) : list A := repeat x (Z.to_nat k).

(** Dictionaries with integer keys, in insertion order. *)
Section dict.
  Context {V : Type}.
  Definition dict := list (Z * V).

  Fixpoint dict_get (d : dict) (k : Z) : option V :=
    match d with
    | [] => None
    | (k', v) :: d' => if k' =? k then Some v else dict_get d' k
    end.

  Fixpoint dict_set (d : dict) (k : Z) (v : V) : dict :=
    match d with
    | [] => [(k, v)]
    | (k', v') :: d' => if k' =? k then (k, v) :: d' else (k', v') :: dict_set d' k v
    end.

  Definition dict_mem (d : dict) (k : Z) : bool :=
    match dict_get d k with Some _ => true | None => false end.

  (** [d[k]] on a plain dict. *)
  Definition dict_lookup (d : dict) (k : Z) : result V :=
    match dict_get d k with Some v => Ok v | None => Err KeyError end.

  Definition dict_keys (d : dict) : list Z := map fst d.
  Definition dict_values (d : dict) : list V := map snd d.
End dict.
Arguments dict V : clear implicits.
