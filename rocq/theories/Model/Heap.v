(** Memory for the reference-counted context trees of model.py (CTW.Node, CTW_KT.Node) and
    modelfast.py (ctwnode_t): nodes live at addresses, a slot of [children] holds an address or
    nothing. A freed address is never handed out again, so that using it is visible as an error
    (a real malloc may reuse it; the theorems show that no freed address is ever used). *)
From Verif Require Export Model.Float.

Definition ptr := nat.

(** The fields every node has: its own data, its child slots and [_refcount]
    (model.py:248-249, 395-396; modelfast.py:6-13). Reference counts do not overflow. *)
Record cell (D : Type) := Cell { c_data : D; c_kids : list (option ptr); c_rc : nat }.
Arguments Cell {D}.
Arguments c_data {D}.
Arguments c_kids {D}.
Arguments c_rc {D}.

(** [None]: the address has been freed. *)
Definition heap (D : Type) := list (option (cell D)).

Section heap.
  Context {D : Type}.

  (** following a pointer, [p->...] *)
  Definition hget (h : heap D) (p : ptr) : result (cell D) :=
    match nth_error h p with Some (Some c) => Ok c | _ => Err UseAfterFree end.

  (** writing through a pointer to a node that is there *)
  Definition hput (h : heap D) (p : ptr) (c : cell D) : result (heap D) :=
    do _ <- hget h p; Ok (list_set h p (Some c)).

  (** a new node *)
  Definition halloc (h : heap D) (c : cell D) : heap D * ptr := (h ++ [Some c], length h).

  (** [free(p)] *)
  Definition hfree (h : heap D) (p : ptr) : result (heap D) :=
    do _ <- hget h p; Ok (list_set h p None).

  (** assigning to the data fields *)
  Definition put_data (h : heap D) (p : ptr) (d : D) : result (heap D) :=
    do c <- hget h p; hput h p (Cell d (c_kids c) (c_rc c)).

  (** [p->children[k] = q] *)
  Definition put_kid (h : heap D) (p : ptr) (k : nat) (q : ptr) : result (heap D) :=
    do c <- hget h p; hput h p (Cell (c_data c) (list_set (c_kids c) k (Some q)) (c_rc c)).

  (** [p->_refcount++] *)
  Definition incr (h : heap D) (p : ptr) : result (heap D) :=
    do c <- hget h p; hput h p (Cell (c_data c) (c_kids c) (S (c_rc c))).

  (** [p->_refcount--]; going below zero is an error value. *)
  Definition decr (h : heap D) (p : ptr) : result (heap D) :=
    do c <- hget h p;
    match c_rc c with
    | O => Err OutOfBounds
    | S n => hput h p (Cell (c_data c) (c_kids c) n)
    end.

  (** the loop [for c in children: if c: c._refcount += 1] *)
  Fixpoint incr_kids (h : heap D) (kids : list (option ptr)) : result (heap D) :=
    match kids with
    | [] => Ok h
    | Some q :: kids' => do h <- incr h q; incr_kids h kids'
    | None :: kids' => incr_kids h kids'
    end.
End heap.
