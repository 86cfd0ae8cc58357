(** model.py:231-501 again, this time with node objects that copies share: the copy-on-write
    trees of CTW (binary contexts) and CTW_KT, and any number of model objects using them. *)
From Verif Require Export Model.Heap Model.CTW.
Open Scope R_scope.

(** The fields of a node besides [children] and [_refcount]. [node_factory] (model.py:264, 324)
    is left out: every node of a copied tree keeps the factory of the object the tree was first
    made for, which the model object records as [o_maker] below. *)
Record cdata (S : Type) := CData { d_base : S; d_blp : R; d_clp : R; d_lp : R }.
Arguments CData {S}.
Arguments d_base {S}.
Arguments d_blp {S}.
Arguments d_clp {S}.
Arguments d_lp {S}.

Section ctw.
  Context {S : Type} (M : model S).
  (** [model_factory()]; base models are values, so [base.copy()] (model.py:320) is deep. *)
  Variable fresh : S.

  (** model.py:259-266 with the two-element child list of 340-341 *)
  Definition h_new (h : heap (cdata S)) : heap (cdata S) * ptr :=
    halloc h (Cell (CData fresh 0 0 0) [None; None] 1).

  (** model.py:316-331 *)
  Definition h_copy (h : heap (cdata S)) (self : ptr) : result (heap (cdata S) * ptr) :=
    do c <- hget h self;
    let '(h, r) := halloc h (Cell (c_data c) (c_kids c) 1) in
    do h <- incr_kids h (c_kids c);
    Ok (h, r).

  (** model.py:268-297. [context] is the Python list reversed; the last component counts the
      calls of [node_factory]. *)
  Fixpoint h_update (context : list Z) (h : heap (cdata S)) (self : ptr) (symbol : Z)
    (history : list Z) (weight : R) : result (heap (cdata S) * R * nat) :=
    do c <- hget h self;
    let d := c_data c in
    do (base, l) <- m_update M (d_base d) symbol history weight;
    do h <- put_data h self (CData base (d_blp d + l) (d_clp d) (d_lp d));
    match context with
    | cnext :: context' =>
        do c <- hget h self;
        do k <- py_index (c_kids c) cnext;
        do slot <- py_get (c_kids c) cnext;
        do (h, child, made) <-
          match slot with
          | None => let '(h, q) := h_new h in do h <- put_kid h self k q; Ok (h, q, 1%nat)
          | Some q =>
              do cc <- hget h q;
              if (1 <? c_rc cc)%nat then
                do h <- decr h q;
                do (h, q') <- h_copy h q;
                do h <- put_kid h self k q';
                Ok (h, q', 0%nat)
              else Ok (h, q, 0%nat)
          end;
        do (h, r, more) <- h_update context' h child symbol history weight;
        do c <- hget h self;
        let d := c_data c in
        let clp := d_clp d + r in
        let lp := log_0_5 + logsumexp2 (d_blp d) clp in
        do h <- put_data h self (CData (d_base d) (d_blp d) clp lp);
        Ok (h, lp - d_lp d, (made + more)%nat)
    | [] =>
        do c <- hget h self;
        let d := c_data c in
        do h <- put_data h self (CData (d_base d) (d_blp d) (d_clp d) (d_blp d));
        Ok (h, d_blp d - d_lp d, 0%nat)
    end.

  (** model.py:299-314: missing children are made even inside shared nodes. *)
  Fixpoint h_log_predict (context : list Z) (h : heap (cdata S)) (self : ptr) (symbol : Z)
    (history : list Z) : result (heap (cdata S) * R * nat) :=
    do c <- hget h self;
    let d := c_data c in
    do l <- m_logp M (d_base d) symbol history;
    let blp := d_blp d + l in
    match context with
    | cnext :: context' =>
        do k <- py_index (c_kids c) cnext;
        do slot <- py_get (c_kids c) cnext;
        do (h, child, made) <-
          match slot with
          | None => let '(h, q) := h_new h in do h <- put_kid h self k q; Ok (h, q, 1%nat)
          | Some q => Ok (h, q, 0%nat)
          end;
        do (h, r, more) <- h_log_predict context' h child symbol history;
        Ok (h, log_0_5 + logsumexp2 blp (d_clp d + r) - d_lp d, (made + more)%nat)
    | [] => Ok (h, blp - d_lp d, 0%nat)
    end.

  (** A CTW object (model.py:350-368): [o_maker] is the object whose [node_factory] its nodes
      call, hence whose [size] counts them. *)
  Record hctw := HCTW { o_depth : Z; o_tree : ptr; o_size : nat; o_maker : nat }.

  (** All objects made so far ([None]: deleted), with the nodes in memory. Dead nodes stay. *)
  Record world := World { w_heap : heap (cdata S); w_objs : list (option hctw) }.

  (** the object a program variable denotes *)
  Definition obj (w : world) (i : nat) : result hctw :=
    match nth_error (w_objs w) i with Some (Some o) => Ok o | _ => Err NameError end.

  (** [self.size += 1] in node_factory (model.py:367), [made] times *)
  Definition add_size (objs : list (option hctw)) (i made : nat) : list (option hctw) :=
    match nth_error objs i with
    | Some (Some o) =>
        list_set objs i (Some (HCTW (o_depth o) (o_tree o) (o_size o + made) (o_maker o)))
    | _ => objs
    end.

  (** model.py:350-362 *)
  Definition w_new (w : world) (depth : Z) : result world :=
    let '(h, p) := h_new (w_heap w) in
    Ok (World h (w_objs w ++ [Some (HCTW depth p 1 (length (w_objs w)))])).

  (** model.py:377-382: [__dict__] is copied, with the size and the depth in it; the nodes keep
      calling the first object's node_factory. *)
  Definition w_copy (w : world) (i : nat) : result world :=
    do o <- obj w i;
    do (h, p) <- h_copy (w_heap w) (o_tree o);
    Ok (World h (w_objs w ++ [Some (HCTW (o_depth o) p (o_size o) (o_maker o))])).

  (** model.py:370-372 *)
  Definition w_update (w : world) (i : nat) (symbol : Z) (history : list Z) (weight : R)
    : result (world * R) :=
    do o <- obj w i;
    do (h, r, made) <- h_update (rev (mkcontext (o_depth o) history)) (w_heap w) (o_tree o)
                         symbol history weight;
    Ok (World h (add_size (w_objs w) (o_maker o) made), r).

  (** model.py:374-375 *)
  Definition w_log_predict (w : world) (i : nat) (symbol : Z) (history : list Z)
    : result (world * R) :=
    do o <- obj w i;
    do (h, r, made) <- h_log_predict (rev (mkcontext (o_depth o) history)) (w_heap w) (o_tree o)
                         symbol history;
    Ok (World h (add_size (w_objs w) (o_maker o) made), r).

  (** nothing happens to the nodes when an object goes away (there is no [__del__]) *)
  Definition w_del (w : world) (i : nat) : result world :=
    do _ <- obj w i; Ok (World (w_heap w) (list_set (w_objs w) i None)).
End ctw.
Arguments HCTW : clear implicits.
Arguments World {S}.
Arguments w_heap {S}.
Arguments w_objs {S}.

(** ** CTW_KT (model.py:384-501) *)
Definition kdata := cdata (list R).

(** model.py:398-404 *)
Definition hk_new (h : heap kdata) : heap kdata * ptr :=
  halloc h (Cell (CData [/2; /2] 0 0 0) [None; None] 1).

(** model.py:461-475 *)
Definition hk_copy (h : heap kdata) (self : ptr) : result (heap kdata * ptr) :=
  do c <- hget h self;
  let '(h, r) := halloc h (Cell (c_data c) (c_kids c) 1) in
  do h <- incr_kids h (c_kids c);
  Ok (h, r).

(** the predicted log-probability, model.py:410-411 and 444-445 *)
Definition hk_logp (counts : list R) (symbol : Z) : result R :=
  do x <- py_get counts symbol;
  do a <- py_get counts 0;
  do b <- py_get counts 1;
  do q <- py_div x (a + b);
  py_log q.

(** model.py:406-412 *)
Definition hk_update_base (h : heap kdata) (self : ptr) (symbol : Z) (weight : R)
  : result (heap kdata) :=
  do c <- hget h self;
  let d := c_data c in
  do l <- hk_logp (d_base d) symbol;
  do x <- py_get (d_base d) symbol;
  do counts <- py_set (d_base d) symbol (x + weight);
  put_data h self (CData counts (d_blp d + l) (d_clp d) (d_lp d)).

(** model.py:414-440 *)
Fixpoint hk_update (context : list Z) (h : heap kdata) (self : ptr) (symbol : Z) (weight : R)
  : result (heap kdata * R) :=
  do h <- hk_update_base h self symbol weight;
  match context with
  | cnext :: context' =>
      do c <- hget h self;
      do k <- py_index (c_kids c) cnext;
      do slot <- py_get (c_kids c) cnext;
      do (h, child) <-
        match slot with
        | None => let '(h, q) := hk_new h in do h <- put_kid h self k q; Ok (h, q)
        | Some q =>
            do cc <- hget h q;
            if (1 <? c_rc cc)%nat then
              do h <- decr h q;
              do (h, q') <- hk_copy h q;
              do h <- put_kid h self k q';
              Ok (h, q')
            else Ok (h, q)
        end;
      do (h, r) <- hk_update context' h child symbol weight;
      do c <- hget h self;
      let d := c_data c in
      let clp := d_clp d + r in
      let lp := log_0_5 + logsumexp2 (d_blp d) clp in
      do h <- put_data h self (CData (d_base d) (d_blp d) clp lp);
      Ok (h, lp - d_lp d)
  | [] =>
      do c <- hget h self;
      let d := c_data c in
      do h <- put_data h self (CData (d_base d) (d_blp d) (d_clp d) (d_blp d));
      Ok (h, d_blp d - d_lp d)
  end.

(** model.py:442-459 *)
Fixpoint hk_log_predict (context : list Z) (h : heap kdata) (self : ptr) (symbol : Z)
  : result (heap kdata * R) :=
  do c <- hget h self;
  let d := c_data c in
  do l <- hk_logp (d_base d) symbol;
  let blp := d_blp d + l in
  match context with
  | cnext :: context' =>
      do k <- py_index (c_kids c) cnext;
      do slot <- py_get (c_kids c) cnext;
      do (h, child) <-
        match slot with
        | None => let '(h, q) := hk_new h in do h <- put_kid h self k q; Ok (h, q)
        | Some q => Ok (h, q)
        end;
      do (h, r) <- hk_log_predict context' h child symbol;
      Ok (h, log_0_5 + logsumexp2 blp (d_clp d + r) - d_lp d)
  | [] => Ok (h, blp - d_lp d)
  end.

(** A CTW_KT object: depth and root (model.py:484-487); all objects with the nodes in memory. *)
Record kworld := KWorld { kw_heap : heap kdata; kw_objs : list (option (Z * ptr)) }.

(** the object a program variable denotes *)
Definition kobj (w : kworld) (i : nat) : result (Z * ptr) :=
  match nth_error (kw_objs w) i with Some (Some o) => Ok o | _ => Err NameError end.

(** model.py:484-487 *)
Definition kw_new (w : kworld) (depth : Z) : result kworld :=
  let '(h, p) := hk_new (kw_heap w) in Ok (KWorld h (kw_objs w ++ [Some (depth, p)])).

(** model.py:496-501 *)
Definition kw_copy (w : kworld) (i : nat) : result kworld :=
  do (depth, p) <- kobj w i;
  do (h, q) <- hk_copy (kw_heap w) p;
  Ok (KWorld h (kw_objs w ++ [Some (depth, q)])).

(** model.py:489-491 *)
Definition kw_update (w : kworld) (i : nat) (symbol : Z) (history : list Z) (weight : R)
  : result (kworld * R) :=
  do (depth, p) <- kobj w i;
  do (h, r) <- hk_update (rev (mkcontext depth history)) (kw_heap w) p symbol weight;
  Ok (KWorld h (kw_objs w), r).

(** model.py:493-494 *)
Definition kw_log_predict (w : kworld) (i : nat) (symbol : Z) (history : list Z)
  : result (kworld * R) :=
  do (depth, p) <- kobj w i;
  do (h, r) <- hk_log_predict (rev (mkcontext depth history)) (kw_heap w) p symbol;
  Ok (KWorld h (kw_objs w), r).

(** there is no [__del__] *)
Definition kw_del (w : kworld) (i : nat) : result kworld :=
  do _ <- kobj w i; Ok (KWorld (kw_heap w) (list_set (kw_objs w) i None)).
