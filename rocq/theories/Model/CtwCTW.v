(** ctw.py:137-208: the CTW of ctw.py, whose nodes are themselves CTW objects and which keeps its
    history in the object; and ctw.py:22-47, the sequence functions it inherits or overrides. *)
From Verif Require Export Model.CtwPTW Model.CTW.
Open Scope R_scope.

(** ctw.py:155-164, the fields used below the root: [depth], [log_prob], [base], [children] (a
    defaultdict; absent at depth 0, here then empty and not used). The histories of the
    children are never used. *)
Inductive qctw (S : Type) :=
  QCTW (depth : Z) (log_prob : R) (base : S) (children : list (Z * qctw S)).
Arguments QCTW {S}.

Definition qc_depth {S} (n : qctw S) := let '(QCTW d _ _ _) := n in d.
Definition qc_lp {S} (n : qctw S) := let '(QCTW _ l _ _) := n in l.
Definition qc_base {S} (n : qctw S) := let '(QCTW _ _ b _) := n in b.
Definition qc_children {S} (n : qctw S) := let '(QCTW _ _ _ c) := n in c.

Section ctw_ctw.
  Context {S : Type} (Q : probseq S).
  (** [Base()], assumed to return an equal fresh model each time. *)
  Variable fresh : S.

  (** ctw.py:155-164; also [defaultdict]'s factory, line 163 *)
  Definition new_qctw (depth : Z) : qctw S := QCTW depth 0 fresh [].

  (** [self.children[child]] of the defaultdict *)
  Definition qc_child (depth : Z) (ch : list (Z * qctw S)) (k : Z) : qctw S :=
    match dict_get ch k with Some c => c | None => new_qctw (depth - 1) end.

  (** ctw.py:175-182. [context] is the Python list reversed, so that [context[-1]] is the head and
      [context[:-1]] the tail. *)
  Fixpoint qc_update (context : list Z) (n : qctw S) (symbol : Z) (weight : R) : result (qctw S) :=
    let '(QCTW depth lp base ch) := n in
    do (base', _) <- m_update (q_model Q) base symbol [] weight;
    if (depth <=? 0)%Z then Ok (QCTW depth (q_lp Q base') base' ch)
    else
      match context with
      | [] => Err IndexError
      | c :: context' =>
          do child' <- qc_update context' (qc_child depth ch c) symbol weight;
          let ch' := dict_set ch c child' in
          do l <- logsumexp [q_lp Q base'; Rsum (map qc_lp (dict_values ch'))];
          Ok (QCTW depth (log_0_5 + l) base' ch')
      end.

  (** ctw.py:187-199. Looking a child up creates it, so the node changes. *)
  Fixpoint qc_log_predict (context : list Z) (n : qctw S) (symbol : Z) : result (qctw S * R) :=
    let '(QCTW depth lp base ch) := n in
    do bp <- m_logp (q_model Q) base symbol [];
    if (depth <=? 0)%Z then Ok (n, bp)
    else
      let children_logp := Rsum (map qc_lp (dict_values ch)) in
      match context with
      | [] => Err IndexError
      | c :: context' =>
          do (child', cp) <- qc_log_predict context' (qc_child depth ch c) symbol;
          do l <- logsumexp [q_lp Q base + bp; children_logp + cp];
          Ok (QCTW depth lp base (dict_set ch c child'), log_0_5 + l - lp)
      end.

  (** The object: the root, [history] and [update_history]. *)
  Record qobj := QObj { qo_root : qctw S; qo_history : list Z; qo_update_history : bool }.

  Section custom.
    (** the [mkcontext] argument (ctw.py:155); the default is [mkcontext depth] (ctw.py:147-153,
        the same text as model.py's). *)
    Variable mkctx : list Z -> list Z.

    (** ctw.py:155-164 with 17-20 *)
    Definition qobj_init (depth : Z) : qobj := QObj (new_qctw depth) [] true.

    (** ctw.py:22-24. The list object is shared with the caller; here its present contents. *)
    Definition use_history (s : qobj) (history : list Z) (update_history : bool) : qobj :=
      QObj (qo_root s) history update_history.

    (** ctw.py:32-34 *)
    Definition reset_history (s : qobj) : result qobj :=
      if qo_update_history s then Ok (QObj (qo_root s) [] true) else Err AssertionError.

    (** ctw.py:166-173 *)
    Definition qobj_update (s : qobj) (symbol : Z) (weight : R) : result (qobj * R) :=
      do t <- qc_update (rev (mkctx (qo_history s))) (qo_root s) symbol weight;
      let h := if qo_update_history s then qo_history s ++ [symbol] else qo_history s in
      Ok (QObj t h (qo_update_history s), qc_lp t - qc_lp (qo_root s)).

    (** ctw.py:184-185 *)
    Definition qobj_log_predict (s : qobj) (symbol : Z) : result (qobj * R) :=
      do (t, r) <- qc_log_predict (rev (mkctx (qo_history s))) (qo_root s) symbol;
      Ok (QObj t (qo_history s) (qo_update_history s), r).

    (** ctw.py:36-41: the sum [rv] is computed but not returned. *)
    Fixpoint qobj_update_loop (s : qobj) (seq : list Z) (weight : R) : result qobj :=
      match seq with
      | [] => Ok s
      | x :: seq' => do (s', _) <- qobj_update s x weight; qobj_update_loop s' seq' weight
      end.
    Definition qobj_update_seq (s : qobj) (seq : list Z) (weight : R) : result (qobj * R) :=
      do s' <- qobj_update_loop s seq weight;
      Ok (s', qc_lp (qo_root s') - qc_lp (qo_root s)).

    (** ctw.py:201-207: works on a copy of the history. *)
    Fixpoint qobj_predict_loop (root : qctw S) (seq history : list Z) (rv : R)
      : result (qctw S * R) :=
      match seq with
      | [] => Ok (root, rv)
      | x :: seq' =>
          do (root', l) <- qc_log_predict (rev (mkctx history)) root x;
          qobj_predict_loop root' seq' (history ++ [x]) (rv + l)
      end.
    Definition qobj_log_predict_seq (s : qobj) (seq : list Z) : result (qobj * R) :=
      do (root, rv) <- qobj_predict_loop (qo_root s) seq (qo_history s) 0;
      Ok (QObj root (qo_history s) (qo_update_history s), rv).
  End custom.
End ctw_ctw.
Arguments QObj {S}.
Arguments qo_root {S}.
Arguments qo_history {S}.
Arguments qo_update_history {S}.
