(** Averager again, with the arithmetic of Python's floats as a parameter (see Model/Floats.v). *)
From Verif Require Export Model.Floats Model.Averager.
Open Scope R_scope.

Section floats.
  Variable F : floats.

  (** [sum(l)]: one addition after the other, from 0 (before Python 3.12; later versions carry the
      rounding error along, which is not modelled) *)
  Definition fp_sum (l : list R) : R := fold_left (f_add F) l 0.

  (** model.py:6-8 *)
  Definition fp_logsumexp (vals : list R) : result R :=
    do shift <- py_max vals;
    do l <- fp_log F (fp_sum (map (fun v => f_exp F (f_sub F v shift)) vals));
    Ok (f_add F shift l).

  Section averager.
    Context {S : Type} (M : model S).

    (** model.py:195-202 *)
    Definition favg_init (ms : list (Z * S)) : result (avg S) :=
      do q <- fp_div F 1 (INR (length ms));
      do l <- fp_log F q;
      Ok (AVG (fold_left (fun d kv => dict_set d (fst kv) (snd kv, l)) ms []) 0).

    (** model.py:204-211 *)
    Definition favg_update (s : avg S) (symbol : Z) (history : list Z) (weight : R) : result (avg S * R) :=
      do ms <- mapM (fun kv : Z * (S * R) => let '(k, (m, lp)) := kv in
                       do (m', l) <- m_update M m symbol history weight;
                       Ok (k, (m', f_add F lp l))) (av_models s);
      do lp <- fp_logsumexp (avg_weights ms);
      Ok (AVG ms lp, f_sub F lp (av_lp s)).

    (** model.py:213-215 *)
    Definition favg_log_predict (s : avg S) (symbol : Z) (history : list Z) : result R :=
      do ls <- mapM (fun kv : Z * (S * R) => let '(k, (m, lp)) := kv in
                       do l <- m_logp M m symbol history; Ok (f_add F l lp)) (av_models s);
      do l <- fp_logsumexp ls;
      Ok (f_sub F l (av_lp s)).

    Definition FAVG_model : model (avg S) := Model favg_update favg_log_predict.
  End averager.
End floats.
