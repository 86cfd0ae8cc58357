(** ctw.py's KT gives the values of model.py's KT. *)
From Coq Require Import Lra.
From Verif Require Import Model.CtwPTW Model.KT Spec.Equiv Proofs.RealFacts Proofs.PyFacts Proofs.ProbFacts Proofs.KTFacts Proofs.EquivFacts.
Open Scope R_scope.

Definition as_kt (s : qkt) : kt := KT (qk_counts s) (Rsum (dict_values (qk_counts s))).
Definition qkt_inv (A : list Z) (s : qkt) : Prop := kt_inv A (as_kt s).

Lemma ln_quot a b : 0 < a -> 0 < b -> ln (a / b) = ln a - ln b.
Proof. intros Ha Hb. unfold Rdiv. rewrite ln_mult, ln_Rinv; [ring|assumption|assumption|apply Rinv_0_lt_compat, Hb]. Qed.

Lemma qkt_law s a h w s' l : m_update (q_model QKT_class) s a h w = Ok (s', l) ->
  q_lp QKT_class s' = q_lp QKT_class s + l.
Proof.
  cbn. unfold qkt_update. destruct (qkt_log_predict s a h) as [rv|]; cbn [bind]; [|discriminate].
  destruct (dict_lookup (qk_counts s) a); cbn [bind]; [|discriminate]. intros [= <- <-]. reflexivity.
Qed.

Lemma qkt_logp A s a h : qkt_inv A s -> qkt_log_predict s a h = kt_log_predict (as_kt s) a h.
Proof.
  intros HI. unfold qkt_log_predict, dict_lookup. destruct (dict_get (qk_counts s) a) as [c|] eqn:E.
  - rewrite (kt_logp_ok A (as_kt s) a h c HI E). cbn [bind].
    pose proof (kt_inv_sum_pos A _ HI) as Hs. cbn [as_kt kt_sum] in Hs.
    assert (Hc : 0 < c).
    { destruct HI as (_ & Hpos & _). apply Hpos. apply dict_get_in in E. apply (in_map snd) in E. exact E. }
    rewrite !py_log_ok by assumption. cbn [bind as_kt kt_sum]. rewrite ln_quot by assumption. reflexivity.
  - rewrite kt_logp_missing by exact E. reflexivity.
Qed.

Lemma qkt_inv_init A : NoDup A -> A <> [] -> qkt_inv A (qkt_init A).
Proof. intros H1 H2. exact (kt_inv_init A H1 H2). Qed.

Lemma as_kt_eta A k : kt_inv A k -> k = KT (kt_counts k) (Rsum (dict_values (kt_counts k))).
Proof. destruct k as [c s]. intros (_ & _ & E & _). cbn in *. rewrite E. reflexivity. Qed.

Lemma qkt_upd A s a h w : qkt_inv A s -> 0 <= w ->
  sim_result (fun q k => as_kt q = k /\ qkt_inv A q) (qkt_update s a h w) (kt_update (as_kt s) a h w).
Proof.
  intros HI Hw. unfold qkt_update. rewrite (qkt_logp A s a h HI).
  destruct (dict_get (qk_counts s) a) as [c|] eqn:E.
  - destruct (kt_update_ok A (as_kt s) a h w c HI E Hw) as (Hu & HI'). rewrite Hu.
    rewrite (kt_logp_ok A (as_kt s) a h c HI E). cbn [bind]. unfold dict_lookup. rewrite E. cbn [bind sim_result].
    pose proof (as_kt_eta A _ HI') as Eta. cbn [as_kt kt_counts] in Eta.
    split; [|reflexivity]. split.
    + unfold as_kt at 1. cbn [qk_counts]. symmetry. exact Eta.
    + unfold qkt_inv, as_kt at 1. cbn [qk_counts]. rewrite <- Eta. exact HI'.
  - unfold kt_update. rewrite kt_logp_missing by exact E. reflexivity.
Qed.

Lemma qkt_same A : NoDup A -> A <> [] ->
  same_values (q_model QKT_class) (qkt_init A) KT_model (kt_init A) (fun e => 0 <= ev_wt e).
Proof.
  intros H1 H2. apply (sim_values _ _ (fun q k => as_kt q = k /\ qkt_inv A q)).
  - intros q k e (<- & HI) Hw. apply qkt_upd; assumption.
  - intros q k e (<- & HI) _. apply (qkt_logp A), HI.
  - split; [reflexivity|apply qkt_inv_init; assumption].
Qed.

Lemma qkt_steps A okh : steps (q_model QKT_class) A okh nonneg (qkt_inv A).
Proof.
  intros s a h w HI Ha _ Hw.
  destruct (law_step _ _ _ _ _ (kt_lawful A) (as_kt s) a h w HI Ha I Hw) as (k' & l & Hu & Hl & _).
  cbn [KT_model m_update m_logp] in *. cbn [QKT_class q_model m_update m_logp].
  pose proof (qkt_upd A s a h w HI Hw) as Hs. rewrite Hu in Hs.
  destruct (qkt_update s a h w) as [[s' l']|] eqn:E; cbn in Hs; [|contradiction].
  destruct Hs as ((_ & HI') & ->). exists s', l. split; [reflexivity|]. split; [|exact HI'].
  rewrite (qkt_logp A) by exact HI. exact Hl.
Qed.

Lemma qkt_lawful A okh : lawful (q_model QKT_class) A okh nonneg (qkt_inv A).
Proof.
  split; [apply qkt_steps|]. intros s h HI _.
  rewrite <- (law_norm _ _ _ _ _ (kt_lawful A) (as_kt s) h HI I). apply Rsum_map_ext. intros a _.
  unfold pred_prob. cbn [QKT_class q_model m_logp KT_model]. rewrite (qkt_logp A) by exact HI. reflexivity.
Qed.
