From Coq Require Import Lra.
From Verif Require Import Model.KT Spec.FMNObjectsSpec Spec.Prob Spec.FMNSpec Proofs.EstimatorProps Proofs.ProbFacts Proofs.FMNProps Proofs.StoreFacts Proofs.PTWFacts Proofs.KTFacts Proofs.KTBinFacts Proofs.FMNFacts Proofs.FMNObjectsTop.
Open Scope R_scope.

Lemma replied_after {S} (M : model S) calls : forall s rs, replies M s calls = Ok rs -> exists s', after M s calls = Ok s'.
Proof.
  induction calls as [|[e|a hist] calls IH]; intros s rs H; cbn [replies after] in *; [eauto|..].
  - destruct (m_update M s (ev_sym e) (ev_hist e) (ev_wt e)) as [[s' r]|x]; cbn [bind] in *; [|discriminate]. destruct (replies M s' calls) eqn:E; [|discriminate]. eauto.
  - destruct (m_logp M s a hist) as [r|x]; cbn [bind] in *; [|discriminate]. destruct (replies M s calls) eqn:E; [|discriminate]. eauto.
Qed.
Lemma run_replied {S} (M : model S) evs : forall s s' l, run M s evs = Ok (s', l) -> exists rs, replies M s (map Update evs) = Ok rs /\ length rs = length evs.
Proof.
  induction evs as [|e evs IH]; intros s s' l H; cbn [run replies map] in *; [eauto|]. destruct (m_update M s (ev_sym e) (ev_hist e) (ev_wt e)) as [[s1 r]|x]; cbn [bind] in *; [|discriminate].
  destruct (run M s1 evs) as [[s2 ls]|x] eqn:E; [|discriminate]. destruct (IH _ _ _ E) as (rs & -> & L). cbn [bind]. eexists. split; [reflexivity|]. cbn. now rewrite L.
Qed.
Lemma after_app {S} (M : model S) l1 l2 : forall s, after M s (l1 ++ l2) = (do s <- after M s l1; after M s l2).
Proof.
  induction l1 as [|[e|a hist] l1 IH]; intros s; cbn [app after]; [reflexivity|..].
  - destruct (m_update M s (ev_sym e) (ev_hist e) (ev_wt e)) as [[s' r]|x]; cbn [bind]; [apply IH|reflexivity].
  - destruct (m_logp M s a hist) as [r|x]; cbn [bind]; [apply IH|reflexivity].
Qed.

(** Any bits can be given to an FMN of KTBinary models. *)
Lemma snapshot_runs mh evs more : Forall (ok_event [0; 1]%Z any_hist nonneg) (evs ++ more) -> exists s1 s2,
  (do s <- o_init mh (LogStore_class addr) ktb_init; after (OFMN_model KTB_model mh (LogStore_class addr)) s (map Update evs)) = Ok s1 /\
  after (OFMN_model KTB_model mh (LogStore_class addr)) s1 (map Update more) = Ok s2.
Proof.
  intros H. destruct (fmn_total KTB_model (LogStore_class _) _ _ _ _ _ (logstore_law _) mh (law_step _ _ _ _ _ ktb_lawful) ktb_init (evs ++ more) ktb_inv_init H) as (s0 & s & l & H0 & Hr).
  destruct (run_replied _ _ _ _ _ Hr) as (rs & HR & _). pose proof (logstore_deep KTB_model mh ktb_init (map Update (evs ++ more))) as HD. rewrite H0 in HD. cbn [bind] in HD. rewrite HR in HD.
  destruct (o_init mh (LogStore_class addr) ktb_init) as [s1|x]; cbn [bind] in *; [|discriminate]. destruct (replied_after _ _ _ _ HD) as (s2 & HA). rewrite map_app, after_app in HA.
  destruct (after (OFMN_model KTB_model mh (LogStore_class addr)) s1 (map Update evs)) as [s3|x]; cbn [bind] in *; [|discriminate]. eauto.
Qed.

Lemma first_node : o_init 0 (LogStore_class addr) 0%nat = Ok ([CBase 0%nat; CBase 0%nat; CAvg [(1%nat, ln (1 / 1))] 0; CNode 2%nat 0 0 0 0 0 None], OFMN [(0%nat, true)] 3%nat 0 0 0).
Proof.
  unfold o_init. cbn. unfold make_node, make_model. cbn. unfold new_averager, py_div, py_log. cbn. destruct (Req_EM_T 1 0) as [E|_]; [lra|]. cbn. destruct (Rlt_dec 0 (1 / 1)) as [_|N]; [|lra]. reflexivity.
Qed.
Lemma log_pos x : 0 < x -> py_log x = Ok (ln x).
Proof. intros H. unfold py_log. destruct (Rlt_dec 0 x); [reflexivity|contradiction]. Qed.

Lemma snapshot_ex : exists s1, (do s <- o_init 0 (LogStore_class addr) 0%nat; after (OFMN_model counting 0 (LogStore_class addr)) s [Update (Event 5 [] 1)]) = Ok s1 /\
  ls_iter (f_models (snd s1)) = [4%nat; 0%nat] /\ nth_error (fst s1) 0 = Some (CBase 0%nat) /\ nth_error (fst s1) 4 = Some (CBase 1%nat).
Proof.
  rewrite first_node. cbn [bind]. eexists. split; [cbn; rewrite log_pos by (apply Rplus_le_lt_0_compat; [lra|apply exp_pos]); cbn; reflexivity|]. repeat split.
Qed.
