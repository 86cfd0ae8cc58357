(** model.py:190-228: Averager. Members share one state type [S] (a sum type covers
    members of different classes). The members are keyed by object identity. *)
From Verif Require Export Model.Iface.
Open Scope R_scope.

Record avg (S : Type) := AVG { av_models : dict (S * R); av_lp : R }.
Arguments AVG {S}.
Arguments av_models {S}.
Arguments av_lp {S}.

Section averager.
  Context {S : Type} (M : model S).

  (** model.py:195-202; [ms] pairs each object with its identity. Listing an object twice
      gives one dictionary entry, but [len(models)] counts it twice. *)
  Definition avg_init (ms : list (Z * S)) : result (avg S) :=
    do q <- py_div 1 (INR (length ms));
    do l <- py_log q;
    Ok (AVG (fold_left (fun d kv => dict_set d (fst kv) (snd kv, l)) ms []) 0).

  Definition avg_weights (d : dict (S * R)) : list R := map (fun kv => snd (snd kv)) d.

  (** model.py:204-211 *)
  Definition avg_update (s : avg S) (symbol : Z) (history : list Z) (weight : R)
    : result (avg S * R) :=
    do ms <- mapM (fun kv : Z * (S * R) => let '(k, (m, lp)) := kv in
                     do (m', l) <- m_update M m symbol history weight;
                     Ok (k, (m', lp + l))) (av_models s);
    do lp <- logsumexp (avg_weights ms);
    Ok (AVG ms lp, lp - av_lp s).

  (** model.py:213-215 *)
  Definition avg_log_predict (s : avg S) (symbol : Z) (history : list Z) : result R :=
    do ls <- mapM (fun kv : Z * (S * R) => let '(k, (m, lp)) := kv in
                     do l <- m_logp M m symbol history; Ok (l + lp)) (av_models s);
    do l <- logsumexp ls;
    Ok (l - av_lp s).

  Definition AVG_model : model (avg S) := Model avg_update avg_log_predict.

  (** [max(d, key=...)]: the first entry with a maximal weight. *)
  Fixpoint max_by (best : Z * (S * R)) (d : dict (S * R)) : Z * (S * R) :=
    match d with
    | [] => best
    | kv :: d' => max_by (if Rlt_dec (snd (snd best)) (snd (snd kv)) then kv else best) d'
    end.

  (** model.py:224-228 *)
  Definition avg_map (s : avg S) : result (Z * S) :=
    match av_models s with
    | [] => Err ValueError
    | kv :: d => let '(k, (m, _)) := max_by kv d in Ok (k, m)
    end.
End averager.
