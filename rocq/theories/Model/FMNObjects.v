(** model.py:190-228, 504-650 and 796-835 with objects: an FMN, its store, the nodes of its tree, their Averagers and the models in
    these, which refer to each other. Base models are single objects whose [copy] is deep (C18, C94); the dictionary of an Averager and
    the lists of a store are not shared, so they are part of the object. *)
From Verif Require Export Model.FMN.
Open Scope R_scope.

Definition addr := nat.

Section objects.
  Context {S : Type} (M : model S).

  Inductive fcell :=
  | CBase (s : S)
  | CAvg (models : list (addr * R)) (log_prob : R)
  | CNode (base : addr) (height count : nat) (base_log_prob left_log_prob log_prob : R) (right_child : option addr).
  Definition fheap := list fcell.

  Definition fget (h : fheap) (p : addr) : result fcell := match nth_error h p with Some c => Ok c | None => Err AttributeError end.
  Definition fput (h : fheap) (p : addr) (c : fcell) : fheap := list_set h p c.
  Definition falloc (h : fheap) (c : fcell) : fheap * addr := (h ++ [c], length h).

  Definition base_update (h : fheap) (p : addr) (a : Z) (hist : list Z) (w : R) : result (fheap * R) :=
    do c <- fget h p;
    match c with CBase s => do (s, r) <- m_update M s a hist w; Ok (fput h p (CBase s), r) | _ => Err AttributeError end.
  Definition base_logp (h : fheap) (p : addr) (a : Z) (hist : list Z) : result R :=
    do c <- fget h p; match c with CBase s => m_logp M s a hist | _ => Err AttributeError end.
  (** [m.copy()] *)
  Definition base_copy (h : fheap) (p : addr) : result (fheap * addr) :=
    do c <- fget h p; match c with CBase s => Ok (falloc h (CBase s)) | _ => Err AttributeError end.

  (** [self.models] and [self.log_prob] of an Averager *)
  Definition get_avg (h : fheap) (p : addr) : result (list (addr * R) * R) :=
    do c <- fget h p; match c with CAvg d l => Ok (d, l) | _ => Err AttributeError end.
  Fixpoint weight_of (d : list (addr * R)) (m : addr) : result R :=
    match d with [] => Err KeyError | (k, x) :: d' => if Nat.eqb k m then Ok x else weight_of d' m end.
  Fixpoint set_weight (d : list (addr * R)) (m : addr) (x : R) : list (addr * R) :=
    match d with [] => [(m, x)] | (k, y) :: d' => if Nat.eqb k m then (k, x) :: d' else (k, y) :: set_weight d' m x end.

  (** model.py:195-202 *)
  Definition new_averager (h : fheap) (models : list addr) : result (fheap * addr) :=
    do q <- py_div 1 (INR (length models));
    do l <- py_log q;
    Ok (falloc h (CAvg (fold_left (fun d m => set_weight d m l) models []) 0)).

  (** model.py:207-208 *)
  Fixpoint weights_loop (h : fheap) (p : addr) (keys : list addr) (a : Z) (hist : list Z) (w : R) : result fheap :=
    match keys with
    | [] => Ok h
    | m :: keys' =>
        do (d, lp) <- get_avg h p;
        do x <- weight_of d m;
        do (h, r) <- base_update h m a hist w;
        do (d, lp) <- get_avg h p;
        weights_loop (fput h p (CAvg (set_weight d m (x + r)) lp)) p keys' a hist w
    end.

  (** model.py:204-211 *)
  Definition averager_update (h : fheap) (p : addr) (a : Z) (hist : list Z) (w : R) : result (fheap * R) :=
    do (d, orig) <- get_avg h p;
    do h <- weights_loop h p (map fst d) a hist w;
    do (d, _) <- get_avg h p;
    do lp <- logsumexp (map snd d);
    Ok (fput h p (CAvg d lp), lp - orig).

  (** model.py:213-215 *)
  Definition averager_logp (h : fheap) (p : addr) (a : Z) (hist : list Z) : result R :=
    do (d, lp) <- get_avg h p;
    do ls <- mapM (fun kv : addr * R => do l <- base_logp h (fst kv) a hist; Ok (l + snd kv)) d;
    do l <- logsumexp ls;
    Ok (l - lp).

  Fixpoint heaviest (best : addr * R) (d : list (addr * R)) : addr :=
    match d with [] => fst best | kv :: d' => heaviest (if Rlt_dec (snd best) (snd kv) then kv else best) d' end.
  (** model.py:224-228 *)
  Definition averager_map (h : fheap) (p : addr) : result addr :=
    do (d, _) <- get_avg h p; match d with [] => Err ValueError | kv :: d' => Ok (heaviest kv d') end.

  (** [m.copy() for m in self.models] *)
  Fixpoint base_copies (h : fheap) (l : list addr) : result (fheap * list addr) :=
    match l with
    | [] => Ok (h, [])
    | m :: l' => do (h, c) <- base_copy h m; do (h, cs) <- base_copies h l'; Ok (h, c :: cs)
    end.

  (** model.py:825-826, with the models in the store *)
  Definition make_model (h : fheap) (store : list addr) : result (fheap * addr) :=
    do (h, ms) <- base_copies h store; new_averager h ms.

  Variable min_height : nat.

  (** model.py:609-610, 519-527 *)
  Definition make_node (h : fheap) (store : list addr) : result (fheap * addr) :=
    do (h, b) <- make_model h store; Ok (falloc h (CNode b min_height 0 0 0 0 None)).

  (** the attributes of a node *)
  Record node := Node { n_base : addr; n_height : nat; n_count : nat; n_blp : R; n_llp : R; n_lp : R; n_right : option addr }.
  Definition get_node (h : fheap) (p : addr) : result node :=
    do c <- fget h p; match c with CNode b ht ct blp llp lp r => Ok (Node b ht ct blp llp lp r) | _ => Err AttributeError end.
  Definition put_node (h : fheap) (p : addr) (n : node) : fheap :=
    fput h p (CNode (n_base n) (n_height n) (n_count n) (n_blp n) (n_llp n) (n_lp n) (n_right n)).

  (** model.py:529-533 *)
  Definition complete (n : node) : bool := Nat.ltb 0 (Nat.shiftr (n_count n) (n_height n)).

  (** model.py:535-568 *)
  Fixpoint node_upd (fuel : nat) (h : fheap) (p : addr) (store : list addr) (a : Z) (hist : list Z) (w : R) : result fheap :=
    match fuel with
    | O => Err OutOfFuel
    | Datatypes.S fuel =>
        do n <- get_node h p;
        do h <- (if complete n then
                   do (h, r) <- make_node h store;
                   Ok (put_node h p (Node (n_base n) (Datatypes.S (n_height n)) (n_count n) (n_blp n) (n_lp n) (n_lp n) (Some r)))
                 else Ok h);
        do (h, l) <- averager_update h (n_base n) a hist w;
        do n <- get_node h p;
        let h := put_node h p (Node (n_base n) (n_height n) (n_count n) (n_blp n + l) (n_llp n) (n_lp n) (n_right n)) in
        do h <- match n_right n with
                | Some r =>
                    do h <- node_upd fuel h r store a hist w;
                    do c <- get_node h r;
                    do n <- get_node h p;
                    let right_log_prob := lift (n_height n - n_height c - 1) (n_blp c) (n_lp c) in
                    Ok (put_node h p (Node (n_base n) (n_height n) (n_count n) (n_blp n) (n_llp n) (log_0_5 + logsumexp2 (n_blp n) (n_llp n + right_log_prob)) (n_right n)))
                | None =>
                    do n <- get_node h p;
                    Ok (put_node h p (Node (n_base n) (n_height n) (n_count n) (n_blp n) (n_llp n) (n_blp n) (n_right n)))
                end;
        do n <- get_node h p;
        Ok (put_node h p (Node (n_base n) (n_height n) (n_count n + 1) (n_blp n) (n_llp n) (n_lp n) (n_right n)))
    end.

  (** model.py:570-583 *)
  Fixpoint node_logp (fuel : nat) (h : fheap) (p : addr) (a : Z) (hist : list Z) : result (R * R * nat) :=
    match fuel with
    | O => Err OutOfFuel
    | Datatypes.S fuel =>
        do n <- get_node h p;
        do l <- averager_logp h (n_base n) a hist;
        let blp := n_blp n + l in
        if complete n then Ok (log_0_5 + logsumexp2 blp (n_lp n), blp, Datatypes.S (n_height n))
        else match n_right n with
             | None => Ok (blp, blp, n_height n)
             | Some r =>
                 do (rlp, rblp, rheight) <- node_logp fuel h r a hist;
                 Ok (log_0_5 + logsumexp2 blp (n_llp n + lift (n_height n - rheight - 1) rblp rlp), blp, n_height n)
             end
    end.

  (** model.py:641-648 *)
  Fixpoint node_scores (fuel : nat) (h : fheap) (p : addr) (left : R) : result (list (R * addr)) :=
    match fuel with
    | O => Err OutOfFuel
    | Datatypes.S fuel =>
        do n <- get_node h p;
        do more <- match n_right n with Some r => node_scores fuel h r (left + (n_llp n + log_0_5)) | None => Ok [] end;
        Ok ((n_blp n + left, n_base n) :: more)
    end.

  Context {T : Type} (C : store_class (S := addr) T).

  (** the attributes of the FMN *)
  Record ofmn := OFMN { f_models : T; f_tree : addr; f_lp : R; f_adj : R; f_t : nat }.

  (** enough: every node is at an address of its own *)
  Definition tree_fuel (h : fheap) : nat := Datatypes.S (length h).

  (** model.py:811-823, 601-607; [fresh] is what [model_factory()] returns *)
  Definition o_init (fresh : S) : result (fheap * ofmn) :=
    let '(h, p) := falloc [] (CBase fresh) in
    do models <- st_lazy_add C (st_empty C) p;
    do (h, tree) <- make_node h (st_iter C models);
    Ok (h, OFMN models tree 0 0 0).

  (** model.py:612-623, 828-835. A copy that the store does not take is made all the same. *)
  Definition o_fmn_update (h : fheap) (f : ofmn) (a : Z) (hist : list Z) (w : R) : result (fheap * ofmn * R) :=
    do n <- get_node h (f_tree f);
    let adj := if complete n then f_adj f + (n_lp n - (log_0_5 + logsumexp2 (n_blp n) (n_lp n))) else f_adj f in
    do h <- node_upd (tree_fuel h) h (f_tree f) (st_iter C (f_models f)) a hist w;
    do n <- get_node h (f_tree f);
    let lp := n_lp n + adj in
    let rv := lp - f_lp f in
    let t := (f_t f + 1)%nat in
    if Nat.eqb (Nat.modulo t (2 ^ min_height)) 0 then
      do nodes <- node_scores (tree_fuel h) h (f_tree f) 0;
      match nodes with
      | [] => Err ValueError
      | x :: l =>
          do best <- averager_map h (snd (max_score x l));
          do (h, c) <- base_copy h best;
          do models <- st_lazy_add C (f_models f) c;
          Ok (h, OFMN models (f_tree f) lp adj t, rv)
      end
    else Ok (h, OFMN (f_models f) (f_tree f) lp adj t, rv).

  (** model.py:625-636 *)
  Definition o_fmn_logp (h : fheap) (f : ofmn) (a : Z) (hist : list Z) : result R :=
    do n <- get_node h (f_tree f);
    let adj := if complete n then f_adj f + n_lp n - (log_0_5 + logsumexp2 (n_blp n) (n_lp n)) else f_adj f in
    do (lp, _, _) <- node_logp (tree_fuel h) h (f_tree f) a hist;
    Ok (lp + adj - f_lp f).

  (** The FMN as a model: the objects in memory and its attributes are its state. *)
  Definition OFMN_model : model (fheap * ofmn) :=
    Model (fun s a hist w => do (h, f, r) <- o_fmn_update (fst s) (snd s) a hist w; Ok ((h, f), r)) (fun s a hist => o_fmn_logp (fst s) (snd s) a hist).
End objects.
Arguments fcell : clear implicits.
Arguments fheap : clear implicits.
