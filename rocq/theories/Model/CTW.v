(** model.py:231-382: CTW, as a value (tree). Sharing between copies (reference counts,
    model.py:282-285 and 316-331) is modelled separately in Model/CTWHeap.v; here a tree has one
    owner, so [child._refcount > 1] never holds. *)
From Verif Require Export Model.Iface.
Open Scope R_scope.

(** model.py:343-348 and 477-482, [_mkcontext]. *)
Definition mkcontext (depth : Z) (x : list Z) : list Z :=
  let padding := (depth - Z.of_nat (length x))%Z in
  py_repeat 0%Z padding ++ slice_from x (- depth).

(** A node; the children store (model.py:255-257 dict, 340-341 two-element list) is an
    association list in both cases, see [child_key]. *)
Inductive cnode (S : Type) :=
  CNode (base : S) (base_log_prob children_log_prob log_prob : R)
        (children : list (Z * cnode S)).
Arguments CNode {S}.

Definition c_base {S} (n : cnode S) := let '(CNode b _ _ _ _) := n in b.
Definition c_blp {S} (n : cnode S) := let '(CNode _ b _ _ _) := n in b.
Definition c_clp {S} (n : cnode S) := let '(CNode _ _ c _ _) := n in c.
Definition c_lp {S} (n : cnode S) := let '(CNode _ _ _ l _) := n in l.
Definition c_ch {S} (n : cnode S) := let '(CNode _ _ _ _ ch) := n in ch.

(** The slot a context symbol selects. For [BinaryNode] the store is the list
    [[None, None]]: Python indexing maps -1 to 1 and -2 to 0 and raises beyond. *)
Definition child_key (binary : bool) (c : Z) : result Z :=
  if binary then do k <- py_index [tt; tt] c; Ok (Z.of_nat k) else Ok c.

Section ctw.
  Context {S : Type} (M : model S).
  (** [model_factory()], assumed to return an equal fresh model each time. *)
  Variable fresh : S.
  Variable binary : bool.

  (** model.py:259-266 *)
  Definition new_node : cnode S := CNode fresh 0 0 0 [].

  (** model.py:268-297. [context] is the Python context list reversed, so that
      [context.pop()] takes the head. Also returns how many nodes were created. *)
  Fixpoint node_update (context : list Z) (n : cnode S) (symbol : Z) (history : list Z)
    (weight : R) : result (cnode S * R * nat) :=
    let '(CNode base blp clp lp ch) := n in
    do (base', l) <- m_update M base symbol history weight;
    let blp' := blp + l in
    match context with
    | c :: context' =>
        do k <- child_key binary c;
        let '(child, made) :=
          match dict_get ch k with Some x => (x, 0%nat) | None => (new_node, 1%nat) end in
        do (child', r, more) <- node_update context' child symbol history weight;
        let clp' := clp + r in
        let lp' := log_0_5 + logsumexp2 blp' clp' in
        Ok (CNode base' blp' clp' lp' (dict_set ch k child'), lp' - lp, (made + more)%nat)
    | [] => Ok (CNode base' blp' clp blp' ch, blp' - lp, 0%nat)
    end.

  (** model.py:299-314. Missing children on the path are created, so the node changes. *)
  Fixpoint node_log_predict (context : list Z) (n : cnode S) (symbol : Z) (history : list Z)
    : result (cnode S * R * nat) :=
    let '(CNode base blp clp lp ch) := n in
    do l <- m_logp M base symbol history;
    let blp' := blp + l in
    match context with
    | c :: context' =>
        do k <- child_key binary c;
        let '(child, made) :=
          match dict_get ch k with Some x => (x, 0%nat) | None => (new_node, 1%nat) end in
        do (child', r, more) <- node_log_predict context' child symbol history;
        let clp' := clp + r in
        Ok (CNode base blp clp lp (dict_set ch k child'),
            log_0_5 + logsumexp2 blp' clp' - lp, (made + more)%nat)
    | [] => Ok (n, blp' - lp, 0%nat)
    end.

  Record ctw := CTW { ctw_depth : Z; ctw_tree : cnode S; ctw_size : nat }.

  (** model.py:350-368 *)
  Definition ctw_init (depth : Z) : ctw := CTW depth new_node 1.

  Section custom.
    (** the [mkcontext] argument (model.py:355); the default is [mkcontext depth]. *)
    Variable mkctx : list Z -> list Z.

    (** model.py:370-372 *)
    Definition ctw_update_with (s : ctw) (symbol : Z) (history : list Z) (weight : R)
      : result (ctw * R) :=
      do (t, r, made) <- node_update (rev (mkctx history)) (ctw_tree s) symbol history weight;
      Ok (CTW (ctw_depth s) t (ctw_size s + made), r).

    (** model.py:374-375 *)
    Definition ctw_log_predict_with (s : ctw) (symbol : Z) (history : list Z)
      : result (ctw * R) :=
      do (t, r, made) <- node_log_predict (rev (mkctx history)) (ctw_tree s) symbol history;
      Ok (CTW (ctw_depth s) t (ctw_size s + made), r).
  End custom.

  Definition ctw_update (s : ctw) := ctw_update_with (mkcontext (ctw_depth s)) s.
  Definition ctw_log_predict (s : ctw) := ctw_log_predict_with (mkcontext (ctw_depth s)) s.

  (** A CTW constructed with a user-supplied [mkcontext]. *)
  Definition CTW_model_with (mkctx : list Z -> list Z) : model ctw :=
    Model (ctw_update_with mkctx) (fun s a h => do (_, r) <- ctw_log_predict_with mkctx s a h; Ok r).

  (** The CTW as a base model for other models: log_predict's new nodes are dropped here;
      C14 shows that they have no observable effect. *)
  Definition CTW_model : model ctw :=
    Model ctw_update (fun s a h => do (_, r) <- ctw_log_predict s a h; Ok r).
End ctw.
Arguments CTW {S}.
Arguments ctw_depth {S}.
Arguments ctw_tree {S}.
Arguments ctw_size {S}.

(** ** CTW_KT (model.py:384-501): nodes hold the two KT counts directly. *)
Inductive knode :=
  KNode (c0 c1 : R) (base_log_prob children_log_prob log_prob : R)
        (child0 child1 : option knode).

(** model.py:398-404 *)
Definition new_knode : knode := KNode (/2) (/2) 0 0 0 None None.

(** the index expression [counts[symbol]] / [children[cnext]] on two-element lists *)
Definition bit_index (i : Z) : result bool :=
  do k <- py_index [tt; tt] i; Ok (Nat.eqb k 1).

(** model.py:414-440 (update_base 406-412 inlined) *)
Fixpoint knode_update (context : list Z) (n : knode) (symbol : Z) (weight : R)
  : result (knode * R) :=
  let '(KNode c0 c1 blp clp lp ch0 ch1) := n in
  do b <- bit_index symbol;
  do q <- py_div (if b then c1 else c0) (c0 + c1);
  do l <- py_log q;
  let blp' := blp + l in
  let c0' := if b then c0 else c0 + weight in
  let c1' := if b then c1 + weight else c1 in
  match context with
  | c :: context' =>
      do i <- bit_index c;
      let child := match (if i then ch1 else ch0) with Some x => x | None => new_knode end in
      do (child', r) <- knode_update context' child symbol weight;
      let clp' := clp + r in
      let lp' := log_0_5 + logsumexp2 blp' clp' in
      Ok (KNode c0' c1' blp' clp' lp' (if i then ch0 else Some child')
                (if i then Some child' else ch1), lp' - lp)
  | [] => Ok (KNode c0' c1' blp' clp blp' ch0 ch1, blp' - lp)
  end.

(** model.py:442-459 *)
Fixpoint knode_log_predict (context : list Z) (n : knode) (symbol : Z)
  : result (knode * R) :=
  let '(KNode c0 c1 blp clp lp ch0 ch1) := n in
  do b <- bit_index symbol;
  do q <- py_div (if b then c1 else c0) (c0 + c1);
  do l <- py_log q;
  let blp' := blp + l in
  match context with
  | c :: context' =>
      do i <- bit_index c;
      let child := match (if i then ch1 else ch0) with Some x => x | None => new_knode end in
      do (child', r) <- knode_log_predict context' child symbol;
      Ok (KNode c0 c1 blp clp lp (if i then ch0 else Some child')
                (if i then Some child' else ch1),
          log_0_5 + logsumexp2 blp' (clp + r) - lp)
  | [] => Ok (n, blp' - lp)
  end.

Record ctwkt := CTWKT { ck_depth : Z; ck_tree : knode }.

(** model.py:484-487 *)
Definition ctwkt_init (depth : Z) : ctwkt := CTWKT depth new_knode.

(** model.py:489-491 *)
Definition ctwkt_update (s : ctwkt) (symbol : Z) (history : list Z) (weight : R)
  : result (ctwkt * R) :=
  do (t, r) <- knode_update (rev (mkcontext (ck_depth s) history)) (ck_tree s) symbol weight;
  Ok (CTWKT (ck_depth s) t, r).

(** model.py:493-494 *)
Definition ctwkt_log_predict (s : ctwkt) (symbol : Z) (history : list Z) : result (ctwkt * R) :=
  do (t, r) <- knode_log_predict (rev (mkcontext (ck_depth s) history)) (ck_tree s) symbol;
  Ok (CTWKT (ck_depth s) t, r).

Definition CTWKT_model : model ctwkt :=
  Model ctwkt_update (fun s a h => do (_, r) <- ctwkt_log_predict s a h; Ok r).
