(** learners.py: PTW and KT. The models of learners.py take neither a history nor a weight;
    they are the models of [Iface] called with [[]] and 1. *)
From Verif Require Export Model.Iface Model.Helpers.
Open Scope R_scope.

(** [del d[k]] *)
Definition dict_del {V} (d : dict V) (k : Z) : result (dict V) :=
  if dict_mem d k then Ok (filter (fun kv => negb (fst kv =? k)%Z) d) else Err KeyError.

Section learners_ptw.
  Context {S : Type} (M : model S).
  (** [self.Model()], assumed to return an equal fresh model each time. *)
  Variable fresh : S.

  (** learners.py:192-200. [models] and [model_log_probs] are dictionaries that always get and
      lose the same keys at the same time; here they are one dictionary of pairs. *)
  Record lptw := LPTW { lw_depth : nat; lw_lp : R; lw_steps : Z; lw_models : dict (S * R);
                        lw_completed : list R }.

  (** learners.py:180-204 with deepest=0 *)
  Definition lptw_init (depth : nat) : lptw :=
    LPTW depth 0 0 [(0%Z, (fresh, 0))] (repeat 0 (depth + 1)).

  (** learners.py:195 *)
  Definition max_steps (s : lptw) : Z := (2 ^ Z.of_nat (lw_depth s))%Z.

  (** learners.py:336-342, the walk up: [i] runs from [i] for [k] values; yields the last
      [part] and [complete]. *)
  Fixpoint walk (models : dict (S * R)) (completed : list R) (t cur_bound : Z) (k : nat) (i : Z)
    (part complete : R) : result (R * R) :=
    match k with
    | O => Ok (part, complete)
    | Datatypes.S k' =>
        do (_, mlp) <- dict_lookup models (binary_boundary t i);
        do c <- py_get completed (i - 1);
        do l <- h_log_sum_exp [mlp; c + part];
        let part' := log_0_5 + l in
        walk models completed t cur_bound k' (i + 1) part' (if (i =? cur_bound)%Z then part' else complete)
    end.

  (** learners.py:350-355, the clearing loop: [i] runs from [i] for [k] values. *)
  Fixpoint clear_done (t : Z) (k : nat) (i : Z) (models : dict (S * R)) (completed : list R)
    : result (dict (S * R) * list R) :=
    match k with
    | O => Ok (models, completed)
    | Datatypes.S k' =>
        do completed' <- py_set completed i 0;
        let m := binary_boundary t i in
        do models' <- (if (m =? binary_boundary t (i + 1))%Z then Ok models else dict_del models m);
        clear_done t k' (i + 1) models' completed'
    end.

  (** learners.py:314-359 *)
  Definition lptw_update (s : lptw) (sym : Z) (history : list Z) (weight : R) : result (lptw * R) :=
    if (lw_steps s >=? max_steps s)%Z then Err ValueError else
    let t := lw_steps s in
    let cur_bound := mscb t in
    let models1 := dict_set (lw_models s) t (fresh, 0) in
    do models2 <- mapM (fun kv : Z * (S * R) => let '(k, (m, lp)) := kv in
                          do (m', l) <- m_update M m sym [] 1; Ok (k, (m', lp + l))) models1;
    do (_, part0) <- dict_lookup models2 t;
    do (part, complete) <- walk models2 (lw_completed s) t cur_bound (lw_depth s) 1 part0 part0;
    do completed1 <- py_set (lw_completed s) cur_bound complete;
    do (models3, completed2) <- clear_done t (Z.to_nat cur_bound) 0 models2 completed1;
    Ok (LPTW (lw_depth s) part (t + 1) models3 completed2, part - lw_lp s).

  (** learners.py:385-390, the loop of log_predict *)
  Fixpoint pwalk (models : dict (S * R)) (completed : list R) (t sym : Z) (k : nat) (i : Z) (pred : R)
    : result R :=
    match k with
    | O => Ok pred
    | Datatypes.S k' =>
        let '(m, mlp) := match dict_get models (binary_boundary t i) with
                         | Some v => v
                         | None => (fresh, 0)
                         end in
        do l <- m_logp M m sym [];
        let model_pred := l + mlp in
        do c <- py_get completed (i - 1);
        do l2 <- h_log_sum_exp [model_pred; pred + c];
        pwalk models completed t sym k' (i + 1) (log_0_5 + l2)
    end.

  (** learners.py:384-391 *)
  Definition lptw_log_predict (s : lptw) (sym : Z) (history : list Z) : result R :=
    do pred <- m_logp M fresh sym [];
    do pred' <- pwalk (lw_models s) (lw_completed s) (lw_steps s) sym (lw_depth s) 1 pred;
    Ok (pred' - lw_lp s).

  Definition LPTW_model : model lptw := Model lptw_update lptw_log_predict.
End learners_ptw.
Arguments LPTW {S}.
Arguments lw_depth {S}.
Arguments lw_lp {S}.
Arguments lw_steps {S}.
Arguments lw_models {S}.
Arguments lw_completed {S}.
Arguments max_steps {S}.

(** learners.py:429-495: KT; [counts] is a pandas Series indexed by the alphabet. *)
Record lkt := LKT { lk_counts : dict R; lk_steps : Z; lk_lp : R }.

(** learners.py:445-451 *)
Definition lkt_init (alphabet : list Z) : lkt :=
  LKT (fold_left (fun d a => dict_set d a (1 / INR (length alphabet))) alphabet []) 0 0.

(** learners.py:481. numpy's [log] does not raise: it is taken of positive numbers only,
    which the model enforces with [py_log]. *)
Definition lkt_log_predict (s : lkt) (x : Z) (history : list Z) : result R :=
  do c <- dict_lookup (lk_counts s) x;
  do l1 <- py_log c;
  do l2 <- py_log (IZR (lk_steps s + 1));
  Ok (l1 - l2).

(** learners.py:462-467, 495 *)
Definition lkt_update (s : lkt) (data : Z) (history : list Z) (weight : R) : result (lkt * R) :=
  do d <- lkt_log_predict s data history;
  do c <- dict_lookup (lk_counts s) data;
  Ok (LKT (dict_set (lk_counts s) data (c + 1)) (lk_steps s + 1) (lk_lp s + d), d).

Definition LKT_model : model lkt := Model lkt_update lkt_log_predict.
