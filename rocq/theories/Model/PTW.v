(** model.py:504-689: PTW and PTWFixedLength. *)
From Verif Require Export Model.Iface.
Open Scope R_scope.

(** model.py:519-527 *)
Inductive pnode (S : Type) :=
  PNode (base : S) (height count : nat) (base_log_prob left_log_prob log_prob : R)
        (right_child : option (pnode S)).
Arguments PNode {S}.

Definition p_base {S} (n : pnode S) := let '(PNode b _ _ _ _ _ _) := n in b.
Definition p_height {S} (n : pnode S) := let '(PNode _ h _ _ _ _ _) := n in h.
Definition p_count {S} (n : pnode S) := let '(PNode _ _ c _ _ _ _) := n in c.
Definition p_blp {S} (n : pnode S) := let '(PNode _ _ _ b _ _ _) := n in b.
Definition p_llp {S} (n : pnode S) := let '(PNode _ _ _ _ l _ _) := n in l.
Definition p_lp {S} (n : pnode S) := let '(PNode _ _ _ _ _ l _) := n in l.
Definition p_right {S} (n : pnode S) := let '(PNode _ _ _ _ _ _ r) := n in r.

(** model.py:529-533 *)
Definition partition_is_complete {S} (n : pnode S) : bool :=
  Nat.ltb 0 (Nat.shiftr (p_count n) (p_height n)).

(** The height-correction loops (model.py:558-559, 580-581, 678-679, 686-687):
    [k] times [x = log_0_5 + logsumexp2(b, x)]. [range] of a negative number is empty,
    which the truncating subtraction on [nat] at the call sites reproduces. *)
Fixpoint lift (k : nat) (b x : R) : R :=
  match k with
  | O => x
  | S k' => lift k' b (log_0_5 + logsumexp2 b x)
  end.

(** model.py:603: [int(math.log(min_partition_length, 2))] for a positive integer, with an
    exact logarithm: the floor of the base-2 logarithm. *)
Definition min_height_of (min_partition_length : nat) : nat := Nat.log2 min_partition_length.

(** model.py:668: [int(math.ceil(math.log(length, 2)))], exact logarithm. *)
Definition fixed_height_of (length : nat) : nat := Nat.log2_up length.

Section ptw.
  Context {S : Type} (M : model S).
  Variable min_height : nat.

  (** model.py:609-610, with the model [fresh] that [model_factory()] returns now. *)
  Definition new_pnode (fresh : S) : pnode S := PNode fresh min_height 0 0 0 0 None.

  (** model.py:535-568. One update creates at most one node, with base [fresh]. *)
  Fixpoint pnode_update (fresh : S) (n : pnode S) (symbol : Z) (history : list Z) (weight : R)
    : result (pnode S) :=
    let '(PNode base height count blp llp lp rch) := n in
    if partition_is_complete n then
      (* promote: the new right child is a fresh node, updated below *)
      do (base', l) <- m_update M base symbol history weight;
      let blp' := blp + l in
      let llp' := lp in
      let height' := Datatypes.S height in
      (* right_child.update on the fresh node (count 0, not complete, no child) *)
      do (rbase', rl) <- m_update M fresh symbol history weight;
      let rblp := 0 + rl in
      let right' := PNode rbase' min_height 1 rblp 0 rblp None in
      let rlp := lift (height' - min_height - 1) rblp rblp in
      Ok (PNode base' height' (count + 1) blp' llp'
                (log_0_5 + logsumexp2 blp' (llp' + rlp)) (Some right'))
    else
      do (base', l) <- m_update M base symbol history weight;
      let blp' := blp + l in
      match rch with
      | Some r =>
          do r' <- pnode_update fresh r symbol history weight;
          let rlp := lift (height - p_height r' - 1) (p_blp r') (p_lp r') in
          Ok (PNode base' height (count + 1) blp' llp
                    (log_0_5 + logsumexp2 blp' (llp + rlp)) (Some r'))
      | None => Ok (PNode base' height (count + 1) blp' llp blp' None)
      end.

  (** model.py:570-583: (log_prob, base_log_prob, height) *)
  Fixpoint pnode_log_predict (n : pnode S) (symbol : Z) (history : list Z)
    : result (R * R * nat) :=
    let '(PNode base height count blp llp lp rch) := n in
    do l <- m_logp M base symbol history;
    let blp' := blp + l in
    if partition_is_complete n then
      Ok (log_0_5 + logsumexp2 blp' lp, blp', Datatypes.S height)
    else
      match rch with
      | None => Ok (blp', blp', height)
      | Some r =>
          do (rlp, rblp, rheight) <- pnode_log_predict r symbol history;
          let rlp' := lift (height - rheight - 1) rblp rlp in
          Ok (log_0_5 + logsumexp2 blp' (llp + rlp'), blp', height)
      end.

  Record ptw := PTW { pt_tree : pnode S; pt_lp : R; pt_adj : R }.

  (** model.py:601-607 *)
  Definition ptw_init (fresh : S) : ptw := PTW (new_pnode fresh) 0 0.

  (** model.py:612-623 *)
  Definition ptw_update (fresh : S) (s : ptw) (symbol : Z) (history : list Z) (weight : R)
    : result (ptw * R) :=
    let t := pt_tree s in
    let adj :=
      if partition_is_complete t
      then pt_adj s + (p_lp t - (log_0_5 + logsumexp2 (p_blp t) (p_lp t)))
      else pt_adj s in
    do t' <- pnode_update fresh t symbol history weight;
    let lp' := p_lp t' + adj in
    Ok (PTW t' lp' adj, lp' - pt_lp s).

  (** model.py:625-636 *)
  Definition ptw_log_predict (s : ptw) (symbol : Z) (history : list Z) : result R :=
    let t := pt_tree s in
    let adj :=
      if partition_is_complete t
      then pt_adj s + p_lp t - (log_0_5 + logsumexp2 (p_blp t) (p_lp t))
      else pt_adj s in
    do (lp, _, _) <- pnode_log_predict t symbol history;
    Ok (lp + adj - pt_lp s).

  (** model.py:641-648, the generator [_nodes]: (score, base) along the right spine *)
  Fixpoint pnode_scores (n : pnode S) (left : R) : list (R * S) :=
    let '(PNode base _ _ blp llp _ rch) := n in
    (blp + left, base) ::
      match rch with Some r => pnode_scores r (left + (llp + log_0_5)) | None => [] end.

  Fixpoint max_score (best : R * S) (l : list (R * S)) : R * S :=
    match l with
    | [] => best
    | x :: l' => max_score (if Rlt_dec (fst best) (fst x) then x else best) l'
    end.

  (** model.py:638-650 *)
  Definition ptw_map (s : ptw) : S :=
    match pnode_scores (pt_tree s) 0 with
    | [] => p_base (pt_tree s) (* not reached: the root is always yielded *)
    | x :: l => snd (max_score x l)
    end.

  (** ** PTWFixedLength (model.py:653-689) *)
  Record ptwf := PTWF { pf_height : nat; pf_tree : pnode S; pf_lp : R }.

  (** inherited from PTW, model.py:638-650 *)
  Definition ptwf_map (s : ptwf) : S :=
    match pnode_scores (pf_tree s) 0 with
    | [] => p_base (pf_tree s) (* not reached: the root is always yielded *)
    | x :: l => snd (max_score x l)
    end.

  (** model.py:666-668 *)
  Definition ptwf_init (length : nat) (fresh : S) : ptwf :=
    PTWF (fixed_height_of length) (new_pnode fresh) 0.

  (** model.py:670-681 *)
  Definition ptwf_update (fresh : S) (s : ptwf) (symbol : Z) (history : list Z) (weight : R)
    : result (ptwf * R) :=
    do t' <- pnode_update fresh (pf_tree s) symbol history weight;
    let lp' := lift (pf_height s - p_height t') (p_blp t') (p_lp t') in
    Ok (PTWF (pf_height s) t' lp', lp' - pf_lp s).

  (** model.py:683-689 *)
  Definition ptwf_log_predict (s : ptwf) (symbol : Z) (history : list Z) : result R :=
    do (lp, blp, height) <- pnode_log_predict (pf_tree s) symbol history;
    Ok (lift (pf_height s - height) blp lp - pf_lp s).
End ptw.
Arguments PTW {S}.
Arguments pt_tree {S}.
Arguments pt_lp {S}.
Arguments pt_adj {S}.
Arguments PTWF {S}.
Arguments pf_height {S}.
Arguments pf_tree {S}.
Arguments pf_lp {S}.

(** The classes as models, for a factory that always returns the same fresh model. *)
Definition PTW_model {S} (M : model S) (min_height : nat) (fresh : S) : model (ptw (S := S)) :=
  Model (ptw_update M min_height fresh) (ptw_log_predict M).
Definition PTWF_model {S} (M : model S) (min_height : nat) (fresh : S) : model (ptwf (S := S)) :=
  Model (ptwf_update M min_height fresh) (ptwf_log_predict M).
