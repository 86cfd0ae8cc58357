(** learners.py's KT gives the values of model.py's KT (every weight 1). *)
From Coq Require Import Lra.
From Verif Require Import Model.LearnersPTW Model.KT Spec.KTSpec Spec.Equiv Proofs.RealFacts Proofs.PyFacts Proofs.ProbFacts Proofs.KTFacts.
From Verif Require Import Proofs.EquivFacts Proofs.CtwKTFacts.
Open Scope R_scope.

Definition lkt_rel (A : list Z) (s : lkt) (k : kt) : Prop :=
  lk_counts s = kt_counts k /\ kt_sum k = IZR (lk_steps s + 1) /\ kt_inv A k.

Lemma lkt_logp A s k a h : lkt_rel A s k -> lkt_log_predict s a h = kt_log_predict k a h.
Proof.
  intros (Hc & Hsum & HI). unfold lkt_log_predict, dict_lookup. rewrite Hc.
  destruct (dict_get (kt_counts k) a) as [c|] eqn:E.
  - rewrite (kt_logp_ok A k a h c HI E). cbn [bind]. pose proof (kt_inv_sum_pos A _ HI) as Hs.
    assert (Hcp : 0 < c).
    { destruct HI as (_ & Hpos & _). apply Hpos. apply dict_get_in in E. apply (in_map snd) in E. exact E. }
    rewrite <- Hsum. rewrite !py_log_ok by assumption. cbn [bind]. rewrite ln_quot by assumption. reflexivity.
  - rewrite kt_logp_missing by exact E. reflexivity.
Qed.

Lemma lkt_upd A s k a h : lkt_rel A s k ->
  sim_result (lkt_rel A) (lkt_update s a h 1) (kt_update k a h 1).
Proof.
  intros HR. pose proof HR as (Hc & Hsum & HI). unfold lkt_update. rewrite (lkt_logp A s k a h HR).
  destruct (dict_get (kt_counts k) a) as [c|] eqn:E.
  - destruct (kt_update_ok A k a h 1 c HI E) as (Hu & HI'); [lra|]. rewrite Hu, (kt_logp_ok A k a h c HI E).
    cbn [bind]. unfold dict_lookup. rewrite Hc, E. cbn [bind sim_result]. split; [|reflexivity].
    split; [reflexivity|]. split; [|exact HI']. cbn [kt_sum lk_steps]. rewrite Hsum, !plus_IZR. lra.
  - unfold kt_update. rewrite kt_logp_missing by exact E. reflexivity.
Qed.

Lemma lkt_rel_init A : NoDup A -> A <> [] -> lkt_rel A (lkt_init A) (kt_init A).
Proof.
  intros H1 H2. split; [reflexivity|]. split; [|apply kt_inv_init; assumption].
  destruct (kt_rep_init A H1 H2) as (_ & Hs & _). rewrite Hs. unfold total. cbn [map lkt_init lk_steps Z.add].
  rewrite Rsum_nil. lra.
Qed.

Lemma lkt_same A : NoDup A -> A <> [] ->
  same_values LKT_model (lkt_init A) KT_model (kt_init A) (fun e => ev_wt e = 1).
Proof.
  intros H1 H2. apply (sim_values _ _ (lkt_rel A)).
  - intros s k e HR Hw. rewrite Hw. apply lkt_upd, HR.
  - intros s k e HR _. apply (lkt_logp A), HR.
  - apply lkt_rel_init; assumption.
Qed.

Definition lkt_inv (A : list Z) (s : lkt) : Prop := exists k, lkt_rel A s k.

Lemma lkt_inv_init A : NoDup A -> A <> [] -> lkt_inv A (lkt_init A).
Proof. intros H1 H2. exists (kt_init A). apply lkt_rel_init; assumption. Qed.

Lemma lkt_steps A okh : steps LKT_model A okh (fun w => w = 1) (lkt_inv A).
Proof.
  intros s a h w (k & HR) Ha _ ->. pose proof HR as (_ & _ & HI).
  destruct (law_step _ _ _ _ _ (kt_lawful A) k a h 1 HI Ha I ltac:(unfold nonneg; lra)) as (k' & l & Hu & Hl & _).
  cbn [KT_model m_update m_logp] in *. pose proof (lkt_upd A s k a h HR) as Hs. rewrite Hu in Hs.
  cbn [LKT_model m_update m_logp]. destruct (lkt_update s a h 1) as [[s' l']|] eqn:E; cbn in Hs; [|contradiction].
  destruct Hs as (HR' & ->). exists s', l. split; [reflexivity|]. split; [|exists k'; exact HR'].
  rewrite (lkt_logp A s k a h HR). exact Hl.
Qed.
