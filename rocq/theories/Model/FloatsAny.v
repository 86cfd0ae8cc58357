(** KT over any alphabet and CTW over any base model, with the arithmetic of Python's floats as a
    parameter (see Model/Floats.v). *)
From Verif Require Export Model.Floats.
Open Scope R_scope.

Section floats.
  Variable F : floats.

  (** model.py:94-98 with counts=None. [sum] starts with the integer 0 and adds from left to right
      (without the compensation of Python 3.12). *)
  Definition fkt_init (alphabet : list Z) : result kt :=
    do v <- fp_div F 1 (INR (length alphabet));
    let c := fold_left (fun d a => dict_set d a v) alphabet [] in
    Ok (KT c (fold_left (f_add F) (dict_values c) 0)).

  (** model.py:106-107 *)
  Definition fkt_log_predict (s : kt) (symbol : Z) (history : list Z) : result R :=
    do c <- dict_lookup (kt_counts s) symbol;
    do q <- fp_div F c (kt_sum s);
    fp_log F q.

  (** model.py:100-104 *)
  Definition fkt_update (s : kt) (symbol : Z) (history : list Z) (weight : R) : result (kt * R) :=
    do rv <- fkt_log_predict s symbol history;
    do c <- dict_lookup (kt_counts s) symbol;
    Ok (KT (dict_set (kt_counts s) symbol (f_add F c weight)) (f_add F (kt_sum s) weight), rv).

  Definition FKT_model : model kt := Model fkt_update fkt_log_predict.

  Section ctw.
    Context {S : Type} (M : model S) (fresh : S) (binary : bool).

    (** model.py:268-297 *)
    Fixpoint fnode_update (context : list Z) (n : cnode S) (symbol : Z) (history : list Z) (weight : R)
      : result (cnode S * R * nat) :=
      let '(CNode base blp clp lp ch) := n in
      do (base', l) <- m_update M base symbol history weight;
      let blp' := f_add F blp l in
      match context with
      | c :: context' =>
          do k <- child_key binary c;
          let '(child, made) :=
            match dict_get ch k with Some x => (x, 0%nat) | None => (new_node fresh, 1%nat) end in
          do (child', r, more) <- fnode_update context' child symbol history weight;
          let clp' := f_add F clp r in
          let lp' := f_add F (fp_log_0_5 F) (fp_logsumexp2 F blp' clp') in
          Ok (CNode base' blp' clp' lp' (dict_set ch k child'), f_sub F lp' lp, (made + more)%nat)
      | [] => Ok (CNode base' blp' clp blp' ch, f_sub F blp' lp, 0%nat)
      end.

    (** model.py:299-314 *)
    Fixpoint fnode_log_predict (context : list Z) (n : cnode S) (symbol : Z) (history : list Z)
      : result (cnode S * R * nat) :=
      let '(CNode base blp clp lp ch) := n in
      do l <- m_logp M base symbol history;
      let blp' := f_add F blp l in
      match context with
      | c :: context' =>
          do k <- child_key binary c;
          let '(child, made) :=
            match dict_get ch k with Some x => (x, 0%nat) | None => (new_node fresh, 1%nat) end in
          do (child', r, more) <- fnode_log_predict context' child symbol history;
          let clp' := f_add F clp r in
          Ok (CNode base blp clp lp (dict_set ch k child'),
              f_sub F (f_add F (fp_log_0_5 F) (fp_logsumexp2 F blp' clp')) lp, (made + more)%nat)
      | [] => Ok (n, f_sub F blp' lp, 0%nat)
      end.

    (** model.py:370-372 *)
    Definition fctw_update (s : ctw (S := S)) (symbol : Z) (history : list Z) (weight : R) : result (ctw * R) :=
      do (t, r, made) <- fnode_update (rev (mkcontext (ctw_depth s) history)) (ctw_tree s) symbol history weight;
      Ok (CTW (ctw_depth s) t (ctw_size s + made), r).

    (** model.py:374-375 *)
    Definition fctw_log_predict (s : ctw (S := S)) (symbol : Z) (history : list Z) : result (ctw * R) :=
      do (t, r, made) <- fnode_log_predict (rev (mkcontext (ctw_depth s) history)) (ctw_tree s) symbol history;
      Ok (CTW (ctw_depth s) t (ctw_size s + made), r).

    Definition FCTW_model : model (ctw (S := S)) :=
      Model fctw_update (fun s a h => do (_, r) <- fctw_log_predict s a h; Ok r).
  End ctw.
End floats.
