(** Code of model.py again, with the arithmetic of Python's floats as a parameter: every operation the
    code performs is one application of [F], in the order of the code. With exact operations these are
    the functions of Model/Float.v and Model/CTW.v. Values are real numbers (the floats among them);
    infinities and NaN are not modelled. *)
From Verif Require Export Model.KT Model.CTW Model.PTW.
Open Scope R_scope.

(** [+], [-], [/] on floats, [math.exp], [math.log] *)
Record floats := Floats { f_add : R -> R -> R; f_sub : R -> R -> R; f_div : R -> R -> R;
                          f_exp : R -> R; f_log : R -> R }.

Definition exact : floats := Floats Rplus Rminus Rdiv exp ln.

Section floats.
  Variable F : floats.

  (** [math.log(x)]: ValueError unless x > 0 *)
  Definition fp_log (x : R) : result R := if Rlt_dec 0 x then Ok (f_log F x) else Err ValueError.

  (** [x / y]: ZeroDivisionError if y = 0 *)
  Definition fp_div (x y : R) : result R := if Req_EM_T y 0 then Err ZeroDivisionError else Ok (f_div F x y).

  (** model.py:3 *)
  Definition fp_log_0_5 : R := f_log F (/ 2).

  (** model.py:10-14. [math.log] and [math.exp] cannot raise here (see Proofs/FloatsFacts.v). *)
  Definition fp_logsumexp2 (v1 v2 : R) : R :=
    if Rlt_dec v1 v2
    then f_add F v2 (f_log F (f_add F 1 (f_exp F (f_sub F v1 v2))))
    else f_add F v1 (f_log F (f_add F 1 (f_exp F (f_sub F v2 v1)))).

  (** model.py:414-440 (update_base 406-412 inlined) *)
  Fixpoint fknode_update (context : list Z) (n : knode) (symbol : Z) (weight : R)
    : result (knode * R) :=
    let '(KNode c0 c1 blp clp lp ch0 ch1) := n in
    do b <- bit_index symbol;
    do q <- fp_div (if b then c1 else c0) (f_add F c0 c1);
    do l <- fp_log q;
    let blp' := f_add F blp l in
    let c0' := if b then c0 else f_add F c0 weight in
    let c1' := if b then f_add F c1 weight else c1 in
    match context with
    | c :: context' =>
        do i <- bit_index c;
        let child := match (if i then ch1 else ch0) with Some x => x | None => new_knode end in
        do (child', r) <- fknode_update context' child symbol weight;
        let clp' := f_add F clp r in
        let lp' := f_add F fp_log_0_5 (fp_logsumexp2 blp' clp') in
        Ok (KNode c0' c1' blp' clp' lp' (if i then ch0 else Some child')
                  (if i then Some child' else ch1), f_sub F lp' lp)
    | [] => Ok (KNode c0' c1' blp' clp blp' ch0 ch1, f_sub F blp' lp)
    end.

  (** model.py:442-459 *)
  Fixpoint fknode_log_predict (context : list Z) (n : knode) (symbol : Z) : result (knode * R) :=
    let '(KNode c0 c1 blp clp lp ch0 ch1) := n in
    do b <- bit_index symbol;
    do q <- fp_div (if b then c1 else c0) (f_add F c0 c1);
    do l <- fp_log q;
    let blp' := f_add F blp l in
    match context with
    | c :: context' =>
        do i <- bit_index c;
        let child := match (if i then ch1 else ch0) with Some x => x | None => new_knode end in
        do (child', r) <- fknode_log_predict context' child symbol;
        Ok (KNode c0 c1 blp clp lp (if i then ch0 else Some child')
                  (if i then Some child' else ch1),
            f_sub F (f_add F fp_log_0_5 (fp_logsumexp2 blp' (f_add F clp r))) lp)
    | [] => Ok (n, f_sub F blp' lp)
    end.

  (** model.py:489-491 *)
  Definition fctwkt_update (s : ctwkt) (symbol : Z) (history : list Z) (weight : R)
    : result (ctwkt * R) :=
    do (t, r) <- fknode_update (rev (mkcontext (ck_depth s) history)) (ck_tree s) symbol weight;
    Ok (CTWKT (ck_depth s) t, r).

  (** model.py:493-494 *)
  Definition fctwkt_log_predict (s : ctwkt) (symbol : Z) (history : list Z) : result (ctwkt * R) :=
    do (t, r) <- fknode_log_predict (rev (mkcontext (ck_depth s) history)) (ck_tree s) symbol;
    Ok (CTWKT (ck_depth s) t, r).

  Definition FCTWKT_model : model ctwkt :=
    Model fctwkt_update (fun s a h => do (_, r) <- fctwkt_log_predict s a h; Ok r).

  (** model.py:136-137 *)
  Definition fktb_log_predict (s : ktb) (symbol : Z) (history : list Z) : result R :=
    do c <- py_get s symbol;
    do c0 <- py_get s 0;
    do c1 <- py_get s 1;
    do q <- fp_div c (f_add F c0 c1);
    fp_log q.

  (** model.py:131-134 *)
  Definition fktb_update (s : ktb) (symbol : Z) (history : list Z) (weight : R)
    : result (ktb * R) :=
    do rv <- fktb_log_predict s symbol history;
    do c <- py_get s symbol;
    do s' <- py_set s symbol (f_add F c weight);
    Ok (s', rv).

  Definition FKTB_model : model ktb := Model fktb_update fktb_log_predict.

  (** model.py:558-559, 580-581, 678-679, 686-687 *)
  Fixpoint flift (k : nat) (b x : R) : R :=
    match k with
    | O => x
    | S k' => flift k' b (f_add F fp_log_0_5 (fp_logsumexp2 b x))
    end.

  Section ptw.
    Context {S : Type} (M : model S).
    Variable min_height : nat.

    (** model.py:535-568 *)
    Fixpoint fpnode_update (fresh : S) (n : pnode S) (symbol : Z) (history : list Z) (weight : R)
      : result (pnode S) :=
      let '(PNode base height count blp llp lp rch) := n in
      if partition_is_complete n then
        do (base', l) <- m_update M base symbol history weight;
        let blp' := f_add F blp l in
        let llp' := lp in
        let height' := Datatypes.S height in
        do (rbase', rl) <- m_update M fresh symbol history weight;
        let rblp := f_add F 0 rl in
        let right' := PNode rbase' min_height 1 rblp 0 rblp None in
        let rlp := flift (height' - min_height - 1) rblp rblp in
        Ok (PNode base' height' (count + 1) blp' llp'
                  (f_add F fp_log_0_5 (fp_logsumexp2 blp' (f_add F llp' rlp))) (Some right'))
      else
        do (base', l) <- m_update M base symbol history weight;
        let blp' := f_add F blp l in
        match rch with
        | Some r =>
            do r' <- fpnode_update fresh r symbol history weight;
            let rlp := flift (height - p_height r' - 1) (p_blp r') (p_lp r') in
            Ok (PNode base' height (count + 1) blp' llp
                      (f_add F fp_log_0_5 (fp_logsumexp2 blp' (f_add F llp rlp))) (Some r'))
        | None => Ok (PNode base' height (count + 1) blp' llp blp' None)
        end.

    (** model.py:570-583 *)
    Fixpoint fpnode_log_predict (n : pnode S) (symbol : Z) (history : list Z) : result (R * R * nat) :=
      let '(PNode base height count blp llp lp rch) := n in
      do l <- m_logp M base symbol history;
      let blp' := f_add F blp l in
      if partition_is_complete n then
        Ok (f_add F fp_log_0_5 (fp_logsumexp2 blp' lp), blp', Datatypes.S height)
      else
        match rch with
        | None => Ok (blp', blp', height)
        | Some r =>
            do (rlp, rblp, rheight) <- fpnode_log_predict r symbol history;
            let rlp' := flift (height - rheight - 1) rblp rlp in
            Ok (f_add F fp_log_0_5 (fp_logsumexp2 blp' (f_add F llp rlp')), blp', height)
        end.

    (** model.py:612-623 *)
    Definition fptw_update (fresh : S) (s : ptw) (symbol : Z) (history : list Z) (weight : R)
      : result (ptw * R) :=
      let t := pt_tree s in
      let adj :=
        if partition_is_complete t
        then f_add F (pt_adj s) (f_sub F (p_lp t) (f_add F fp_log_0_5 (fp_logsumexp2 (p_blp t) (p_lp t))))
        else pt_adj s in
      do t' <- fpnode_update fresh t symbol history weight;
      let lp' := f_add F (p_lp t') adj in
      Ok (PTW t' lp' adj, f_sub F lp' (pt_lp s)).

    (** model.py:625-636 *)
    Definition fptw_log_predict (s : ptw) (symbol : Z) (history : list Z) : result R :=
      let t := pt_tree s in
      let adj :=
        if partition_is_complete t
        then f_sub F (f_add F (pt_adj s) (p_lp t)) (f_add F fp_log_0_5 (fp_logsumexp2 (p_blp t) (p_lp t)))
        else pt_adj s in
      do (lp, _, _) <- fpnode_log_predict t symbol history;
      Ok (f_sub F (f_add F lp adj) (pt_lp s)).

    Definition FPTW_model (fresh : S) : model (ptw (S := S)) :=
      Model (fptw_update fresh) fptw_log_predict.
  End ptw.

  (** model.py:46-54 *)
  Fixpoint fp_update_seq_loop {S} (M : model S) (s : S) (seq hist : list Z) (w rv : R)
    : result (S * list Z * R) :=
    match seq with
    | [] => Ok (s, hist, rv)
    | x :: seq' =>
        do (s', l) <- m_update M s x hist w;
        fp_update_seq_loop M s' seq' (hist ++ [x]) w (f_add F rv l)
    end.
  Definition fp_update_seq {S} (M : model S) (s : S) (seq hist : list Z) (w : R) : result (S * list Z * R) :=
    do (s', hist', rv) <- fp_update_seq_loop M s seq hist w 0;
    Ok (s', slice_clear_from hist' (- Z.of_nat (length seq)), rv).
End floats.
