(** ctw.py:77-135, 319-387: SAD, Averager and FMN of ctw.py. *)
From Verif Require Export Model.CtwPTW Model.CtwCTW Model.FMN.
Open Scope R_scope.

(** ** SAD (ctw.py:77-106) *)
Record qsad := QSAD { qs_n : Z; qs_counts : dict R; qs_t : R; qs_lp : R }.

(** ctw.py:85-89 *)
Definition qsad_init (n : Z) : qsad := QSAD n [] 0 0.

(** ctw.py:99-106 *)
Definition qsad_log_predict (s : qsad) (symbol : Z) (history : list Z) : result R :=
  let m := py_min2 (INR (length (qs_counts s))) (qs_t s) in
  do beta <- (if Rlt_dec 0 (qs_t s) then
                do q <- py_div (qs_t s + 1) m;
                do l <- py_log q;
                py_div m (2 * l)
              else Ok 1);
  match dict_get (qs_counts s) symbol with
  | Some c => do q <- py_div c (qs_t s + beta); py_log q
  | None =>
      do q <- py_div beta
                (IZR (qs_n s - Z.of_nat (length (qs_counts s))) * (qs_t s + beta));
      py_log q
  end.

(** ctw.py:91-97 *)
Definition qsad_update (s : qsad) (symbol : Z) (history : list Z) (weight : R) : result (qsad * R) :=
  do rv <- qsad_log_predict s symbol history;
  let counts := match dict_get (qs_counts s) symbol with
                | Some _ => qs_counts s
                | None => dict_set (qs_counts s) symbol 0
                end in
  do c <- dict_lookup counts symbol;
  Ok (QSAD (qs_n s) (dict_set counts symbol (c + weight)) (qs_t s + weight) (qs_lp s + rv), rv).

Definition QSAD_class : probseq qsad := ProbSeq (Model qsad_update qsad_log_predict) qs_lp.

(** ** Averager (ctw.py:108-135) *)
Record qavg (S : Type) := QAVG { qa_models : list S; qa_log_1_over_n : R; qa_lp : R }.
Arguments QAVG {S}.
Arguments qa_models {S}.
Arguments qa_log_1_over_n {S}.
Arguments qa_lp {S}.

Section averager.
  Context {S : Type} (Q : probseq S).
  (** the assignment [m.log_prob = 0] to a member *)
  Variable reset : S -> S.

  (** ctw.py:109-117. The members are distinct objects. *)
  Definition qavg_init (models : list S) : result (qavg S) :=
    do q <- py_div 1 (INR (length models));
    do l <- py_log q;
    Ok (QAVG (map reset models) l 0).

  (** ctw.py:119-126; what the members' update returns is not used. *)
  Definition qavg_update (s : qavg S) (symbol : Z) (history : list Z) (weight : R) : result (qavg S * R) :=
    do ms <- mapM (fun m => do (m', _) <- m_update (q_model Q) m symbol [] weight; Ok m') (qa_models s);
    do l <- logsumexp (map (q_lp Q) ms);
    let lp := qa_log_1_over_n s + l in
    Ok (QAVG ms (qa_log_1_over_n s) lp, lp - qa_lp s).

  (** ctw.py:128-129 *)
  Definition qavg_log_predict (s : qavg S) (symbol : Z) (history : list Z) : result R :=
    do ls <- mapM (fun m => do l <- m_logp (q_model Q) m symbol []; Ok (l + q_lp Q m)) (qa_models s);
    do l <- logsumexp ls;
    Ok (qa_log_1_over_n s + l - qa_lp s).

  Definition QAVG_class : probseq (qavg S) := ProbSeq (Model qavg_update qavg_log_predict) qa_lp.

  (** ctw.py:131-135: the first member with a maximal [log_prob] *)
  Fixpoint qmax_by (best : S) (l : list S) : S :=
    match l with
    | [] => best
    | m :: l' => qmax_by (if Rlt_dec (q_lp Q best) (q_lp Q m) then m else best) l'
    end.
  Definition qavg_map (s : qavg S) : result S :=
    match qa_models s with [] => Err ValueError | m :: l => Ok (qmax_by m l) end.
End averager.

(** ** PTW.map (ctw.py:319-332): the first base with a maximal score *)
Fixpoint qmax_score {S} (best : R * S) (l : list (R * S)) : R * S :=
  match l with
  | [] => best
  | x :: l' => qmax_score (if Rlt_dec (fst best) (fst x) then x else best) l'
  end.
Definition qptw_map {S} (Q : probseq S) (s : qptw (S := S)) : result S :=
  match qnode_scores Q (qp_tree s) 0 with
  | [] => Err ValueError
  | x :: l => Ok (snd (qmax_score x l))
  end.

(** ** FMN (ctw.py:375-387), with ctw.LogStore (ctw.py:334-373, whose [add] is that of model.py's
    LogStore) or another store. *)
Section fmn.
  Context {S : Type} (Q : probseq S) (reset : S -> S) {T : Type} (C : store_class (S := S) T).
  (** the order in which [set(self.models)] is iterated, which depends on object addresses and so on
      the time (the number of symbols seen). The objects in the store are distinct. *)
  Variable order : nat -> list S -> list S.

  Record qfmn := QFMN { qf_models : T; qf_ptw : qptw (S := qavg S) }.

  (** The number of symbols seen, [self.tree.t]. *)
  Definition qf_t (s : qfmn) : nat := qn_t (qp_tree (qf_ptw s)).

  (** ctw.py:381-382; deepcopy gives new objects with the same state. *)
  Definition qfmn_base (t : nat) (models : T) : result (qavg S) :=
    qavg_init reset (order t (st_iter C models)).

  (** ctw.py:376-379 with 291-296 *)
  Definition qfmn_init (height : nat) (fresh : S) : result qfmn :=
    do models <- st_lazy_add C (st_empty C) fresh;
    do a <- qfmn_base 0 models;
    Ok (QFMN models (qptw_init a height)).

  (** ctw.py:384-387. [self.Base()] is called only when a node is created; calling it at the start
      changes nothing since it only creates copies. *)
  Definition qfmn_update (s : qfmn) (symbol : Z) (history : list Z) (weight : R) : result (qfmn * R) :=
    do a <- qfmn_base (qf_t s) (qf_models s);
    do (p, rv) <- qptw_update (QAVG_class Q) a (qf_ptw s) symbol [] weight;
    do b <- qptw_map (QAVG_class Q) p;
    do m <- qavg_map Q b;
    do models <- st_lazy_add C (qf_models s) m;
    Ok (QFMN models p, rv).

  (** inherited, ctw.py:310-317 *)
  Definition qfmn_log_predict (s : qfmn) (symbol : Z) (history : list Z) : result R :=
    do a <- qfmn_base (qf_t s) (qf_models s);
    qptw_log_predict (QAVG_class Q) a (qf_ptw s) symbol [].

  Definition QFMN_model : model qfmn := Model qfmn_update qfmn_log_predict.
End fmn.
Arguments QFMN {S T}.
Arguments qf_models {S T}.
Arguments qf_ptw {S T}.
Arguments qf_t {S T}.

(** ** [m.log_prob = 0] for the classes of ctw.py *)
Definition qkt_reset (s : qkt) : qkt := QKT (qk_counts s) 0.
Definition qsad_reset (s : qsad) : qsad := QSAD (qs_n s) (qs_counts s) (qs_t s) 0.
Definition qptw_reset {S} (s : qptw (S := S)) : qptw := QPTW (qp_height s) 0 (qp_tree s).
Definition qavg_reset {S} (s : qavg S) : qavg S := QAVG (qa_models s) (qa_log_1_over_n s) 0.
Definition qobj_reset {S} (s : qobj (S := S)) : qobj :=
  let '(QCTW depth _ base ch) := qo_root s in
  QObj (QCTW depth 0 base ch) (qo_history s) (qo_update_history s).

(** ** PTW (ctw.py:210-332) and CTW (ctw.py:137-207) with their attribute [log_prob]. The CTW keeps its
    history; the children [log_predict] creates in it do not change later values (C60). *)
Definition QPTW_class {S} (Q : probseq S) (fresh : S) : probseq (qptw (S := S)) :=
  ProbSeq (QPTW_model Q fresh) qp_lp.
Definition QCTW_class {S} (Q : probseq S) (fresh : S) (mkctx : list Z -> list Z) : probseq (qobj (S := S)) :=
  ProbSeq (Model (fun s a _ w => qobj_update Q fresh mkctx s a w)
                 (fun s a _ => do (_, l) <- qobj_log_predict Q fresh mkctx s a; Ok l))
          (fun s => qc_lp (qo_root s)).
