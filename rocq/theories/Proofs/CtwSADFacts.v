(** ctw.py's SAD gives the values of model.py's; which classes have a plain running total. *)
From Coq Require Import Lra.
From Verif Require Import Model.CtwFMN Model.KT Spec.CtwFMNSpec Proofs.RealFacts Proofs.PyFacts Proofs.ProbFacts.
From Verif Require Import Proofs.SADFacts Proofs.EquivFacts Proofs.CtwKTFacts.
Open Scope R_scope.

Lemma dict_set_twice {V} (d : dict V) k v v' : dict_set (dict_set d k v) k v' = dict_set d k v'.
Proof.
  induction d as [|[k0 v0] d IH]; cbn [dict_set].
  - rewrite Z.eqb_refl. reflexivity.
  - destruct (Z.eqb k0 k) eqn:E; cbn [dict_set]; rewrite ?E, ?Z.eqb_refl; cbn [dict_set]; rewrite ?E, ?Z.eqb_refl, ?IH; reflexivity.
Qed.

Definition as_sad (s : qsad) : sad := SAD (qs_n s) (qs_counts s) (qs_t s).

Lemma qsad_logp s a h : qsad_log_predict s a h = sad_log_predict (as_sad s) a h.
Proof. reflexivity. Qed.

Lemma qsad_upd s a h w : sim_result (fun q k => as_sad q = k) (qsad_update s a h w) (sad_update (as_sad s) a h w).
Proof.
  unfold qsad_update, sad_update. rewrite qsad_logp.
  destruct (sad_log_predict (as_sad s) a h) as [rv|e]; cbn [bind]; [|reflexivity].
  cbn [as_sad sad_counts sad_n sad_sum]. unfold dict_lookup.
  destruct (dict_get (qs_counts s) a) as [c|] eqn:E; cbn [bind].
  - rewrite E. cbn [bind sim_result]. split; reflexivity.
  - rewrite dict_get_set_same. cbn [bind sim_result]. split; [|reflexivity].
    unfold as_sad. cbn. rewrite dict_set_twice. reflexivity.
Qed.

Lemma qsad_same n : same_values (q_model QSAD_class) (qsad_init n) SAD_model (sad_init n) (fun _ => True).
Proof.
  apply (sim_values _ _ (fun q k => as_sad q = k)); [| |reflexivity].
  - intros q k e <- _. apply qsad_upd.
  - intros q k e <- _. apply qsad_logp.
Qed.

Definition qsad_inv (A : list Z) (s : qsad) : Prop := sad_inv A (as_sad s).

Lemma qsad_steps A okh : steps (q_model QSAD_class) A okh positive (qsad_inv A).
Proof.
  intros s a h w HI Ha _ Hw. destruct (sad_step A (as_sad s) a h w HI Ha Hw) as (s1 & l & Hu & Hl & HI').
  pose proof (qsad_upd s a h w) as G. rewrite Hu in G. cbn [QSAD_class q_model m_update m_logp].
  destruct (qsad_update s a h w) as [[s' l']|] eqn:E; cbn [sim_result] in G; [|contradiction].
  destruct G as (<- & ->). exists s', l. split; [reflexivity|]. split; [exact Hl|exact HI'].
Qed.

Lemma qsad_rt : running_total QSAD_class qsad_reset.
Proof.
  split; cbn [QSAD_class q_model q_lp m_update m_logp]; try reflexivity.
  - intros s a h w s' l. unfold qsad_update. destruct (qsad_log_predict s a h) as [rv|]; cbn [bind]; [|discriminate].
    destruct (dict_lookup _ a); cbn [bind]; [|discriminate]. intros [= <- <-]. reflexivity.
  - intros s a h w. unfold qsad_update. change (qsad_log_predict (qsad_reset s) a h) with (qsad_log_predict s a h).
    destruct (qsad_log_predict s a h) as [rv|]; cbn [bind]; [|reflexivity]. cbn [qsad_reset qs_counts].
    destruct (dict_lookup _ a); cbn [bind]; reflexivity.
Qed.

Lemma qkt_rt : running_total QKT_class qkt_reset.
Proof.
  split; try reflexivity; [exact qkt_law|].
  cbn [QKT_class q_model q_lp m_update m_logp]. intros s a h w. unfold qkt_update.
  change (qkt_log_predict (qkt_reset s) a h) with (qkt_log_predict s a h).
  destruct (qkt_log_predict s a h) as [rv|]; cbn [bind]; [|reflexivity]. cbn [qkt_reset qk_counts].
  destruct (dict_lookup _ a); cbn [bind]; reflexivity.
Qed.

Lemma qptw_recomputed {S} (Q : probseq S) fresh : recomputed (QPTW_class Q fresh) qptw_reset.
Proof.
  split; [reflexivity|]. intros s a h w. cbn [QPTW_class QPTW_model q_model q_lp m_update]. unfold qptw_update.
  cbn [qptw_reset qp_tree qp_height qp_lp].
  destruct (qnode_update Q fresh (qp_tree s) a w) as [t|]; cbn [bind]; [|reflexivity].
  destruct (qn_height t <=? qp_height s)%nat; [|reflexivity].
  destruct (qlift _ _ _) as [l|]; cbn [bind]; [|reflexivity]. cbn [qp_lp]. do 2 f_equal. lra.
Qed.

Lemma qavg_recomputed {S} (Q : probseq S) : recomputed (QAVG_class Q) qavg_reset.
Proof.
  split; [reflexivity|]. intros s a h w. cbn [QAVG_class q_model q_lp m_update]. unfold qavg_update.
  cbn [qavg_reset qa_models qa_log_1_over_n qa_lp].
  destruct (mapM _ (qa_models s)) as [ms|]; cbn [bind]; [|reflexivity].
  destruct (logsumexp _) as [l|]; cbn [bind]; [|reflexivity]. cbn [qa_lp]. do 2 f_equal. lra.
Qed.

Lemma qctw_recomputed {S} (Q : probseq S) fresh mkctx : recomputed (QCTW_class Q fresh mkctx) qobj_reset.
Proof.
  split; [intros [[d lp b ch] hs u]; reflexivity|]. intros [[d lp b ch] hs u] a h w.
  cbn [QCTW_class q_model q_lp m_update qobj_reset qo_root qo_history qo_update_history]. unfold qobj_update.
  cbn [qo_root qo_history qo_update_history].
  destruct (rev (mkctx hs)) as [|c cs]; cbn [qc_update qc_lp].
  all: destruct (m_update (q_model Q) b a [] w) as [[b' l]|]; cbn [bind]; [|reflexivity].
  all: destruct (d <=? 0)%Z; cbn [bind qc_lp qo_root]; try reflexivity; try (do 2 f_equal; lra).
  destruct (qc_update Q fresh cs _ a w) as [t|]; cbn [bind]; [|reflexivity].
  destruct (logsumexp _) as [x|]; cbn [bind qc_lp qo_root]; [|reflexivity]. do 2 f_equal. lra.
Qed.
