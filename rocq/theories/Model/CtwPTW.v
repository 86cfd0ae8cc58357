(** ctw.py:210-332: the PTW of ctw.py, which keeps its time [t] and reads [log_prob] from its
    base models. *)
From Verif Require Export Model.Iface.
Open Scope R_scope.

(** ctw.py:11-58: a [ProbSeq] also has an attribute [log_prob]. The objects keep their own
    history, so the [history] argument of the interface is not used by these classes. *)
Record probseq (S : Type) := ProbSeq { q_model : model S; q_lp : S -> R }.
Arguments ProbSeq {S}.
Arguments q_model {S}.
Arguments q_lp {S}.

(** ctw.py:220-231 *)
Inductive qnode (S : Type) :=
  QNode (base : S) (height : nat) (log_prob left_log_prob : R) (right_child : option (qnode S))
        (t : nat).
Arguments QNode {S}.

Definition qn_base {S} (n : qnode S) := let '(QNode b _ _ _ _ _) := n in b.
Definition qn_height {S} (n : qnode S) := let '(QNode _ h _ _ _ _) := n in h.
Definition qn_lp {S} (n : qnode S) := let '(QNode _ _ l _ _ _) := n in l.
Definition qn_llp {S} (n : qnode S) := let '(QNode _ _ _ l _ _) := n in l.
Definition qn_right {S} (n : qnode S) := let '(QNode _ _ _ _ r _) := n in r.
Definition qn_t {S} (n : qnode S) := let '(QNode _ _ _ _ _ t) := n in t.

(** ctw.py:233-238, [not (t & (t-1))]; at [t = 0] Python computes [0 & -1 = 0]. *)
Definition at_splitpoint (t : nat) : bool :=
  (Z.land (Z.of_nat t) (Z.of_nat t - 1) =? 0)%Z.

(** The loops [for i in range(k): x = log_0_5 + logsumexp(b, x)] (ctw.py:262-263, 286-287,
    305-306, 314-315). A negative [k] is an empty range. *)
Fixpoint qlift (k : nat) (b x : R) : result R :=
  match k with
  | O => Ok x
  | S k' => do l <- logsumexp [b; x]; qlift k' b (log_0_5 + l)
  end.

Section ctw_ptw.
  Context {S : Type} (Q : probseq S).
  (** [Base()], assumed to return an equal fresh model each time. *)
  Variable fresh : S.

  (** ctw.py:220-231 *)
  Definition new_qnode : qnode S := QNode fresh 0 0 0 None 0.

  (** ctw.py:240-267. At a split point the new right child is a node with [t = 0], whose update
      (lines 242, 245-246, 267) is written out. [self.right_child] is None only while
      [t = 0] or at the split point [t = 1]; otherwise Python raises AttributeError. *)
  Fixpoint qnode_update (n : qnode S) (symbol : Z) (weight : R) : result (qnode S) :=
    let '(QNode base height lp llp rch t) := n in
    do (base', _) <- m_update (q_model Q) base symbol [] weight;
    match t with
    | O => Ok (QNode base' height (q_lp Q base') llp rch (Datatypes.S t))
    | Datatypes.S _ =>
        do (llp', height', r') <-
          (if at_splitpoint t then
             do (rbase, _) <- m_update (q_model Q) fresh symbol [] weight;
             Ok (lp, Datatypes.S height, QNode rbase 0 (q_lp Q rbase) 0 None 1)
           else
             match rch with
             | None => Err AttributeError
             | Some r => do r' <- qnode_update r symbol weight; Ok (llp, height, r')
             end);
        do rlp <- qlift (height' - qn_height r' - 1) (q_lp Q (qn_base r')) (qn_lp r');
        do l <- logsumexp [q_lp Q base'; llp' + rlp];
        Ok (QNode base' height' (log_0_5 + l) llp' (Some r') (Datatypes.S t))
    end.

  (** ctw.py:269-289 *)
  Fixpoint qnode_log_predict (n : qnode S) (symbol : Z) : result R :=
    let '(QNode base height lp llp rch t) := n in
    do l0 <- m_logp (q_model Q) base symbol [];
    let base_lp := q_lp Q base + l0 in
    match t with
    | O => Ok (base_lp - lp)
    | Datatypes.S _ =>
        do (right_lp, right_base_lp, left_lp, height_diff) <-
          (if at_splitpoint t then
             do r <- m_logp (q_model Q) fresh symbol [];
             Ok (r, r, lp, Datatypes.S height)
           else
             match rch with
             | None => Err AttributeError
             | Some r =>
                 do rl <- qnode_log_predict r symbol;
                 do rb <- m_logp (q_model Q) (qn_base r) symbol [];
                 Ok (qn_lp r + rl, q_lp Q (qn_base r) + rb, llp,
                     (height - qn_height r - (if at_splitpoint (qn_t r) then 1 else 0))%nat)
             end);
        do rlp <- qlift (height_diff - 1) right_base_lp right_lp;
        do l <- logsumexp [base_lp; left_lp + rlp];
        Ok (log_0_5 + l - lp)
    end.

  Record qptw := QPTW { qp_height : nat; qp_lp : R; qp_tree : qnode S }.

  (** ctw.py:291-296 *)
  Definition qptw_init (height : nat) : qptw := QPTW height 0 new_qnode.

  (** ctw.py:298-308 *)
  Definition qptw_update (s : qptw) (symbol : Z) (history : list Z) (weight : R) : result (qptw * R) :=
    do t' <- qnode_update (qp_tree s) symbol weight;
    if (qn_height t' <=? qp_height s)%nat then
      do lp <- qlift (qp_height s - qn_height t') (q_lp Q (qn_base t')) (qn_lp t');
      Ok (QPTW (qp_height s) lp t', lp - qp_lp s)
    else Err AssertionError.

  (** ctw.py:310-317 *)
  Definition qptw_log_predict (s : qptw) (symbol : Z) (history : list Z) : result R :=
    let tr := qp_tree s in
    do l <- qnode_log_predict tr symbol;
    let tree_lp := qn_lp tr + l in
    do lb <- m_logp (q_model Q) (qn_base tr) symbol [];
    let tree_base_lp := q_lp Q (qn_base tr) + lb in
    do lp <- qlift (qp_height s - (qn_height tr + (if at_splitpoint (qn_t tr) then 1 else 0)))
                   tree_base_lp tree_lp;
    Ok (lp - qp_lp s).

  Definition QPTW_model : model qptw := Model qptw_update qptw_log_predict.

  (** ctw.py:323-330 *)
  Fixpoint qnode_scores (n : qnode S) (left : R) : list (R * S) :=
    let '(QNode base _ _ llp rch _) := n in
    (q_lp Q base + left, base) ::
      match rch with Some r => qnode_scores r (left + (llp + log_0_5)) | None => [] end.
End ctw_ptw.
Arguments QPTW {S}.
Arguments qp_height {S}.
Arguments qp_lp {S}.
Arguments qp_tree {S}.

(** ctw.py:60-75: KT, with [log_prob]. *)
Record qkt := QKT { qk_counts : dict R; qk_lp : R }.

(** ctw.py:61-66 with counts=None *)
Definition qkt_init (alphabet : list Z) : qkt :=
  QKT (fold_left (fun d a => dict_set d a (1 / INR (length alphabet))) alphabet []) 0.

(** ctw.py:74-75 *)
Definition qkt_log_predict (s : qkt) (symbol : Z) (history : list Z) : result R :=
  do c <- dict_lookup (qk_counts s) symbol;
  do l1 <- py_log c;
  do l2 <- py_log (Rsum (dict_values (qk_counts s)));
  Ok (l1 - l2).

(** ctw.py:68-72 *)
Definition qkt_update (s : qkt) (symbol : Z) (history : list Z) (weight : R) : result (qkt * R) :=
  do rv <- qkt_log_predict s symbol history;
  do c <- dict_lookup (qk_counts s) symbol;
  Ok (QKT (dict_set (qk_counts s) symbol (c + weight)) (qk_lp s + rv), rv).

Definition QKT_class : probseq qkt := ProbSeq (Model qkt_update qkt_log_predict) qk_lp.
