(** modelfast.py: CTW_KT on a C context tree with manual memory management. The C code compiled
    for ALPHABET_SIZE = N. Undefined behaviour (following a freed pointer, indexing outside an
    array, a reference count below zero) is an error value, as is the logarithm of a number that
    is not positive (NaN or -inf in C; it needs a negative weight). [malloc] does not fail. *)
From Verif Require Export Model.CTWHeap.
Open Scope R_scope.

(** [counts[i]], [children[i]]: in bounds or undefined *)
Definition c_index {A} (l : list A) (i : Z) : result (nat * A) :=
  if (0 <=? i)%Z then
    match nth_error l (Z.to_nat i) with
    | Some x => Ok (Z.to_nat i, x)
    | None => Err OutOfBounds
    end
  else Err OutOfBounds.

(** a byte read as a (signed) [char] *)
Definition to_char (b : Z) : Z := if (b <? 128)%Z then b else (b - 256)%Z.

(** C's [log]: NaN and -inf are not modelled *)
Definition c_log (x : R) : result R := if Rlt_dec 0 x then Ok (ln x) else Err ValueError.

Section modelfast.
  Variable N : nat.

  (** modelfast.py:62-70 *)
  Definition ctwnode_new (h : heap kdata) : heap kdata * ptr :=
    halloc h (Cell (CData (repeat (1 / INR N) N) 0 0 0) (repeat None N) 1).

  (** modelfast.py:72-81; the recursion goes down the tree, bounded by [fuel]. *)
  Fixpoint ctwnode_free (fuel : nat) (h : heap kdata) (self : ptr) : result (heap kdata) :=
    match fuel with
    | O => Err OutOfFuel
    | S fuel' =>
        do h <- decr h self;
        do c <- hget h self;
        if (c_rc c =? 0)%nat then
          do h <- (fix loop (kids : list (option ptr)) (h : heap kdata) : result (heap kdata) :=
                     match kids with
                     | [] => Ok h
                     | Some q :: kids' => do h <- ctwnode_free fuel' h q; loop kids' h
                     | None :: kids' => loop kids' h
                     end) (c_kids c) h;
          hfree h self
        else Ok h
    end.

  (** modelfast.py:83-92 *)
  Definition ctwnode_copy (h : heap kdata) (self : ptr) : result (heap kdata * ptr) :=
    do c <- hget h self;
    let '(h, copy) := halloc h (Cell (c_data c) (c_kids c) 1) in
    do c <- hget h self;
    do h <- incr_kids h (c_kids c);
    Ok (h, copy).

  (** [log(base_counts[symbol] / sum_counts)], modelfast.py:96-98 and 128-132 *)
  Definition ctwnode_base_logp (counts : list R) (symbol : Z) : result R :=
    do (_, x) <- c_index counts symbol;
    c_log (x / fold_left Rplus counts 0).

  (** modelfast.py:94-100 *)
  Definition ctwnode_base_update (h : heap kdata) (self : ptr) (symbol : Z) (weight : R)
    : result (heap kdata) :=
    do c <- hget h self;
    let d := c_data c in
    do l <- ctwnode_base_logp (d_base d) symbol;
    do (i, x) <- c_index (d_base d) symbol;
    put_data h self (CData (list_set (d_base d) i (x + weight)) (d_blp d + l) (d_clp d) (d_lp d)).

  (** modelfast.py:102-124 *)
  Fixpoint ctwnode_update (ctxtlen : nat) (h : heap kdata) (self : ptr) (symbol : Z) (weight : R)
    (context : list Z) : result (heap kdata * R) :=
    do h <- ctwnode_base_update h self symbol weight;
    match ctxtlen with
    | S n =>
        do (_, b) <- c_index context (Z.of_nat n);
        let cnext := to_char b in
        do c <- hget h self;
        do (k, slot) <- c_index (c_kids c) cnext;
        do (h, child) <-
          match slot with
          | None => let '(h, q) := ctwnode_new h in do h <- put_kid h self k q; Ok (h, q)
          | Some q =>
              do cc <- hget h q;
              if (1 <? c_rc cc)%nat then
                do h <- decr h q;
                do (h, q') <- ctwnode_copy h q;
                do h <- put_kid h self k q';
                Ok (h, q')
              else Ok (h, q)
          end;
        do (h, r) <- ctwnode_update n h child symbol weight context;
        do c <- hget h self;
        let d := c_data c in
        let clp := d_clp d + r in
        let lp := log_0_5 + c_logsumexp2 (d_blp d) clp in
        do h <- put_data h self (CData (d_base d) (d_blp d) clp lp);
        Ok (h, lp - d_lp d)
    | O =>
        do c <- hget h self;
        let d := c_data c in
        do h <- put_data h self (CData (d_base d) (d_blp d) (d_clp d) (d_blp d));
        Ok (h, d_blp d - d_lp d)
    end.

  (** modelfast.py:126-145 *)
  Fixpoint ctwnode_log_predict (ctxtlen : nat) (h : heap kdata) (self : ptr) (symbol : Z)
    (context : list Z) : result (heap kdata * R) :=
    do c <- hget h self;
    let d := c_data c in
    do l <- ctwnode_base_logp (d_base d) symbol;
    let blp := d_blp d + l in
    match ctxtlen with
    | S n =>
        do (_, b) <- c_index context (Z.of_nat n);
        let cnext := to_char b in
        do (k, slot) <- c_index (c_kids c) cnext;
        do (h, child) <-
          match slot with
          | None => let '(h, q) := ctwnode_new h in do h <- put_kid h self k q; Ok (h, q)
          | Some q => Ok (h, q)
          end;
        do (h, r) <- ctwnode_log_predict n h child symbol context;
        Ok (h, log_0_5 + c_logsumexp2 blp (d_clp d + r) - d_lp d)
    | O => Ok (h, blp - d_lp d)
    end.

  (** modelfast.py:147-154 *)
  Fixpoint ctwnode_size (fuel : nat) (h : heap kdata) (self : ptr) : result nat :=
    match fuel with
    | O => Err OutOfFuel
    | S fuel' =>
        do c <- hget h self;
        (fix loop (kids : list (option ptr)) (size : nat) : result nat :=
           match kids with
           | [] => Ok size
           | Some q :: kids' => do n <- ctwnode_size fuel' h q; loop kids' (size + n)%nat
           | None :: kids' => loop kids' size
           end) (c_kids c) 1%nat
    end.

  (** Python's [bytes(l)] *)
  Definition py_bytes (l : list Z) : result (list Z) :=
    if forallb (fun b => (0 <=? b) && (b <=? 255))%Z l then Ok l else Err ValueError.

  (** A CTW_KT object of modelfast.py is a depth and a root pointer (modelfast.py:168-175); the
      objects made so far ([None]: destroyed) with the C heap. *)
  Record cworld := CWorld { cw_heap : heap kdata; cw_objs : list (option (Z * ptr)) }.

  (** the object a program variable denotes *)
  Definition cobj (w : cworld) (i : nat) : result (Z * ptr) :=
    match nth_error (cw_objs w) i with Some (Some o) => Ok o | _ => Err NameError end.

  (** modelfast.py:168-175 *)
  Definition cw_new (w : cworld) (depth : Z) : result cworld :=
    let '(h, p) := ctwnode_new (cw_heap w) in Ok (CWorld h (cw_objs w ++ [Some (depth, p)])).

  (** modelfast.py:177-178, [__del__]. The fuel is more than the number of nodes ever made. *)
  Definition cw_del (w : cworld) (i : nat) : result cworld :=
    do (_, p) <- cobj w i;
    do h <- ctwnode_free (S (length (cw_heap w))) (cw_heap w) p;
    Ok (CWorld h (list_set (cw_objs w) i None)).

  (** modelfast.py:184-186 with 180-182; a negative depth becomes a huge unsigned length *)
  Definition cw_update (w : cworld) (i : nat) (symbol : Z) (history : list Z) (weight : R)
    : result (cworld * R) :=
    do (depth, p) <- cobj w i;
    do context <- py_bytes (mkcontext depth history);
    do _ <- py_bytes [symbol];
    if (depth <? 0)%Z then Err OutOfBounds else
    do (h, r) <- ctwnode_update (Z.to_nat depth) (cw_heap w) p (to_char symbol) weight context;
    Ok (CWorld h (cw_objs w), r).

  (** modelfast.py:188-190 *)
  Definition cw_log_predict (w : cworld) (i : nat) (symbol : Z) (history : list Z)
    : result (cworld * R) :=
    do (depth, p) <- cobj w i;
    do context <- py_bytes (mkcontext depth history);
    do _ <- py_bytes [symbol];
    if (depth <? 0)%Z then Err OutOfBounds else
    do (h, r) <- ctwnode_log_predict (Z.to_nat depth) (cw_heap w) p (to_char symbol) context;
    Ok (CWorld h (cw_objs w), r).

  (** modelfast.py:192-194 *)
  Definition cw_size (w : cworld) (i : nat) : result nat :=
    do (_, p) <- cobj w i;
    ctwnode_size (S (length (cw_heap w))) (cw_heap w) p.

  (** modelfast.py:196-202 *)
  Definition cw_copy (w : cworld) (i : nat) : result cworld :=
    do (depth, p) <- cobj w i;
    do (h, q) <- ctwnode_copy (cw_heap w) p;
    Ok (CWorld h (cw_objs w ++ [Some (depth, q)])).
End modelfast.
