(** The interface shared by all predictive models (model.py:17-78). *)
From Verif Require Export Model.Float.
Open Scope R_scope.

(** One call [update(symbol, history, weight)]. Symbols are Python integers. *)
Record event := Event { ev_sym : Z; ev_hist : list Z; ev_wt : R }.

(** A model class with states [S]: what [update] and [log_predict] do.
    An exception loses the (possibly half-updated) state. *)
Record model (S : Type) := Model {
  m_update : S -> Z -> list Z -> R -> result (S * R);
  m_logp   : S -> Z -> list Z -> result R }.
Arguments Model {S}.
Arguments m_update {S}.
Arguments m_logp {S}.

Section seq.
  Context {S : Type} (M : model S).

  (** model.py:50-52, the loop of [update_seq]: the growing list object [history]. *)
  Fixpoint update_seq_loop (s : S) (seq hist : list Z) (w rv : R)
    : result (S * list Z * R) :=
    match seq with
    | [] => Ok (s, hist, rv)
    | x :: seq' =>
        do (s', l) <- m_update M s x hist w;
        update_seq_loop s' seq' (hist ++ [x]) w (rv + l)
    end.

  (** model.py:46-54. Returns the model, the caller's [history] afterwards, the value. *)
  Definition update_seq (s : S) (seq hist : list Z) (w : R) : result (S * list Z * R) :=
    do (s', hist', rv) <- update_seq_loop s seq hist w 0;
    Ok (s', slice_clear_from hist' (- Z.of_nat (length seq)), rv).

  (** model.py:62-64 *)
  Fixpoint log_predict_seq_loop (s : S) (seq hist : list Z) (rv : R)
    : result (list Z * R) :=
    match seq with
    | [] => Ok (hist, rv)
    | x :: seq' =>
        do l <- m_logp M s x hist;
        log_predict_seq_loop s seq' (hist ++ [x]) (rv + l)
    end.

  (** model.py:56-66 *)
  Definition log_predict_seq (s : S) (seq hist : list Z) : result (list Z * R) :=
    do (hist', rv) <- log_predict_seq_loop s seq hist 0;
    Ok (slice_clear_from hist' (- Z.of_nat (length seq)), rv).

  (** model.py:68-71 *)
  Definition predict (s : S) (x : Z) (hist : list Z) : result R :=
    do l <- m_logp M s x hist; Ok (exp l).
End seq.
