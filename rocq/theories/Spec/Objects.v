(** Programs that make, copy, delete and use any number of model objects, and what such a
    program returns when every copy is a value of its own. *)
From Verif Require Export Model.Iface.
Open Scope R_scope.

(** Objects are numbered in the order they are made. *)
Inductive oop :=
| ONew (depth : Z)
| OCopy (i : nat)
| ODel (i : nat)
| OUpdate (i : nat) (a : Z) (h : list Z) (w : R)
| OPredict (i : nat) (a : Z) (h : list Z).

(** Running a program: the final world and the values returned by update and log_predict. *)
Section run.
  Context {W : Type} (new : W -> Z -> result W) (copy del : W -> nat -> result W)
    (upd : W -> nat -> Z -> list Z -> R -> result (W * R))
    (prd : W -> nat -> Z -> list Z -> result (W * R)).

  Fixpoint orun (w : W) (ops : list oop) : result (W * list R) :=
    match ops with
    | [] => Ok (w, [])
    | ONew d :: ops' => do w <- new w d; orun w ops'
    | OCopy i :: ops' => do w <- copy w i; orun w ops'
    | ODel i :: ops' => do w <- del w i; orun w ops'
    | OUpdate i a h x :: ops' =>
        do (w, r) <- upd w i a h x; do (w, rs) <- orun w ops'; Ok (w, r :: rs)
    | OPredict i a h :: ops' =>
        do (w, r) <- prd w i a h; do (w, rs) <- orun w ops'; Ok (w, r :: rs)
    end.
End run.

(** The values returned, or the exception. *)
Definition returned {W} (x : result (W * list R)) : result (list R) := do (_, rs) <- x; Ok rs.

(** Deep copies: an object is a value, copying repeats it, and using one object cannot
    concern another. *)
Section deep.
  Context {O : Type} (mk : Z -> O) (upd : O -> Z -> list Z -> R -> result (O * R))
    (prd : O -> Z -> list Z -> result (O * R)).

  Definition dget (w : list (option O)) (i : nat) : result O :=
    match nth_error w i with Some (Some o) => Ok o | _ => Err NameError end.
  Definition deep_new (w : list (option O)) (d : Z) : result (list (option O)) :=
    Ok (w ++ [Some (mk d)]).
  Definition deep_copy (w : list (option O)) (i : nat) : result (list (option O)) :=
    do o <- dget w i; Ok (w ++ [Some o]).
  Definition deep_del (w : list (option O)) (i : nat) : result (list (option O)) :=
    do _ <- dget w i; Ok (list_set w i None).
  Definition deep_update (w : list (option O)) (i : nat) (a : Z) (h : list Z) (x : R)
    : result (list (option O) * R) :=
    do o <- dget w i; do (o', r) <- upd o a h x; Ok (list_set w i (Some o'), r).
  Definition deep_predict (w : list (option O)) (i : nat) (a : Z) (h : list Z)
    : result (list (option O) * R) :=
    do o <- dget w i; do (o', r) <- prd o a h; Ok (list_set w i (Some o'), r).

  Definition deep_run (ops : list oop) : result (list (option O) * list R) :=
    orun deep_new deep_copy deep_del deep_update deep_predict [] ops.
End deep.

(** Calls within an alphabet of [N] symbols (fitting in a signed byte), with depths of at least
    [dmin] and weights that are not negative. *)
Definition symbol (N : nat) (a : Z) : Prop := (0 <= a < Z.of_nat N)%Z /\ (a < 128)%Z.

Definition within (N : nat) (dmin : Z) (o : oop) : Prop :=
  match o with
  | ONew d => (dmin <= d)%Z
  | OCopy _ | ODel _ => True
  | OUpdate _ a h w => symbol N a /\ Forall (symbol N) h /\ 0 <= w
  | OPredict _ a h => symbol N a /\ Forall (symbol N) h
  end.
