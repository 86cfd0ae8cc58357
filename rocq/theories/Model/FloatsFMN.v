(** FMN again, with the arithmetic of Python's floats as a parameter (see Model/Floats.v). *)
From Verif Require Export Model.FloatsAverager Model.FMN.
Open Scope R_scope.

Section floats.
  Variable F : floats.

  Section map.
    Context {S : Type}.

    (** model.py:641-648, the generator [_nodes]; [left += t.left_log_prob + log_0_5] is two additions *)
    Fixpoint fpnode_scores (n : pnode S) (left : R) : list (R * S) :=
      let '(PNode base _ _ blp llp _ rch) := n in
      (f_add F blp left, base) ::
        match rch with Some r => fpnode_scores r (f_add F left (f_add F llp (fp_log_0_5 F))) | None => [] end.

    (** model.py:638-650 *)
    Definition fptw_map (s : ptw (S := S)) : S :=
      match fpnode_scores (pt_tree s) 0 with
      | [] => p_base (pt_tree s) (* not reached: the root is always yielded *)
      | x :: l => snd (max_score x l)
      end.
  End map.

  Section fmn.
    Context {S : Type} (M : model S) {T : Type} (C : store_class (S := S) T).
    Variable min_height : nat.

    (** model.py:825-826, as in Model/FMN.v *)
    Definition ffmn_factory (models : T) : result (avg S) :=
      favg_init F (number_from 0 (st_iter C models)).

    (** model.py:811-823 *)
    Definition ffmn_init (fresh : S) : result (fmn (S := S) (T := T)) :=
      do models <- st_lazy_add C (st_empty C) fresh;
      do a <- ffmn_factory models;
      Ok (FMN models (ptw_init min_height a) 0).

    (** model.py:828-835, with the simplifications of Model/FMN.v: [model_factory()] and the argument
        of [lazy_add] are evaluated at once *)
    Definition ffmn_update (s : fmn) (symbol : Z) (history : list Z) (weight : R)
      : result (fmn * R) :=
      do a <- ffmn_factory (fm_models s);
      do (p, rv) <- fptw_update F (FAVG_model F M) min_height a (fm_ptw s) symbol history weight;
      let t := (fm_t s + 1)%nat in
      if Nat.eqb (Nat.modulo t (2 ^ min_height)) 0 then
        do (_, m) <- avg_map (fptw_map p);
        do models <- st_lazy_add C (fm_models s) m;
        Ok (FMN models p t, rv)
      else Ok (FMN (fm_models s) p t, rv).

    (** inherited model.py:625-636 *)
    Definition ffmn_log_predict (s : fmn (S := S) (T := T)) (symbol : Z) (history : list Z) : result R :=
      fptw_log_predict F (FAVG_model F M) (fm_ptw s) symbol history.

    Definition FFMN_model : model (fmn (S := S) (T := T)) := Model ffmn_update ffmn_log_predict.
  End fmn.
End floats.
