(** learners.py:394-428: Averager, the older copy of model.py's (Model/Averager.v). The state is the
    same: a dictionary from member to log weight, and [log_prob]. The members of learners.py take the
    symbol only; [M] is called with an empty history and unit weight. *)
From Verif Require Export Model.Averager.
Open Scope R_scope.

Section learners_averager.
  Context {S : Type} (M : model S).

  (** learners.py:400-407 (the constructor is a reset of the list it is given); [1.0/len(...)] is
      Python's division, and [log] is numpy's, of a positive number *)
  Definition la_init (ms : list (Z * S)) : result (avg S) :=
    do q <- py_div 1 (INR (length ms));
    Ok (AVG (fold_left (fun d kv => dict_set d (fst kv) (snd kv, ln q)) ms []) 0).

  (** learners.py:404-407, on the dictionary the previous reset made: iterating it gives its keys, the
      member objects in the state they are in *)
  Definition la_reset (s : avg S) : result (avg S) :=
    la_init (map (fun kv => (fst kv, fst (snd kv))) (av_models s)).

  (** learners.py:409-414; [cur_prob] is never used, and nothing is returned *)
  Definition la_update (s : avg S) (sym : Z) : result (avg S) :=
    do ms <- mapM (fun kv : Z * (S * R) => let '(k, (m, lp)) := kv in
                     do (m', l) <- m_update M m sym [] 1;
                     Ok (k, (m', lp + l))) (av_models s);
    do lp <- h_log_sum_exp (avg_weights ms);
    Ok (AVG ms lp).

  (** learners.py:416-418 *)
  Definition la_log_predict (s : avg S) (sym : Z) : result R :=
    do ls <- mapM (fun kv : Z * (S * R) => let '(k, (m, lp)) := kv in
                     do l <- m_logp M m sym []; Ok (l + lp)) (av_models s);
    h_log_sum_exp ls.

  (** learners.py:420-427 is [avg_map] *)
  Definition la_map (s : avg S) : result (Z * S) := avg_map s.

  (** a caller: one [update] per symbol *)
  Fixpoint la_run (s : avg S) (xs : list Z) : result (avg S) :=
    match xs with
    | [] => Ok s
    | x :: xs' => do s' <- la_update s x; la_run s' xs'
    end.
End learners_averager.
