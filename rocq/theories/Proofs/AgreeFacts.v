(** update() and log_predict() return the same value (and raise the same exception). *)
From Coq Require Import Lra.
From Verif Require Import Model.KT Model.Averager Model.Factored Model.CTW Spec.Prob.
From Verif Require Import Proofs.RealFacts Proofs.PyFacts.
Open Scope R_scope.

Lemma kt_agrees : agrees KT_model.
Proof.
  intros s a h w. cbn [KT_model m_update m_logp]. unfold kt_update, kt_log_predict.
  destruct (dict_lookup (kt_counts s) a) as [c|e]; cbn [bind]; [|reflexivity].
  destruct (py_div c (kt_sum s)) as [q|e]; cbn [bind]; [|reflexivity].
  destruct (py_log q); reflexivity.
Qed.

Lemma py_get_set_ok {A} (s : list A) i x c : py_get s i = Ok c -> exists s', py_set s i x = Ok s'.
Proof.
  unfold py_get, py_set. destruct (py_index s i); cbn [bind]; [eauto|discriminate].
Qed.

Lemma ktb_agrees : agrees KTB_model.
Proof.
  intros s a h w. cbn [KTB_model m_update m_logp]. unfold ktb_update, ktb_log_predict.
  destruct (py_get s a) as [c|e] eqn:E; cbn [bind]; [|reflexivity].
  destruct (py_get s 0) as [c0|e]; cbn [bind]; [|reflexivity].
  destruct (py_get s 1) as [c1|e]; cbn [bind]; [|reflexivity].
  destruct (py_div c (c0 + c1)) as [q|e]; cbn [bind]; [|reflexivity].
  destruct (py_log q); cbn [bind]; [|reflexivity].
  destruct (py_get_set_ok s a (c + w) c E) as [s' ->]. reflexivity.
Qed.

Lemma sad_agrees : agrees SAD_model.
Proof.
  intros s a h w. cbn [SAD_model m_update m_logp]. unfold sad_update.
  destruct (sad_log_predict s a h); reflexivity.
Qed.

Lemma dumb_agrees : agrees Dumb_model.
Proof. intros s a h w. reflexivity. Qed.

Lemma avg_agrees {S} (M : model S) : agrees M -> agrees (AVG_model M).
Proof.
  intros HM s a h w. cbn [AVG_model m_update m_logp]. unfold avg_update, avg_log_predict.
  assert (E: (do ms <- mapM (fun kv : Z * (S * R) => let '(k, (m, lp)) := kv in
                     do (m', l) <- m_update M m a h w; Ok (k, (m', lp + l))) (av_models s);
              Ok (avg_weights ms)) =
             mapM (fun kv : Z * (S * R) => let '(k, (m, lp)) := kv in
                     do l <- m_logp M m a h; Ok (l + lp)) (av_models s)).
  { induction (av_models s) as [|[k [m lp]] d IH]; [reflexivity|]. cbn [mapM].
    rewrite <- (HM m a h w). destruct (m_update M m a h w) as [[m' l]|e]; cbn [bind]; [|reflexivity].
    rewrite <- IH.
    destruct (mapM _ d) as [ms|e]; cbn [bind]; [|reflexivity].
    unfold avg_weights. cbn [map snd]. rewrite (Rplus_comm lp l). reflexivity. }
  rewrite <- E. destruct (mapM _ (av_models s)) as [ms|e]; cbn [bind]; [|reflexivity].
  destruct (logsumexp (avg_weights ms)); reflexivity.
Qed.

(** Factored forwards without the weight; the value does not depend on it. *)
Lemma factored_agrees {S} (M : model S) : agrees M -> agrees (Factored_model M).
Proof.
  intros HM s a h w. cbn [Factored_model m_update m_logp]. unfold fac_update, fac_log_predict.
  destruct (fac_index s h) as [i|e]; cbn [bind]; [|reflexivity].
  destruct (nth_error s i) as [m|]; [|reflexivity].
  rewrite <- (HM m a h 1). destruct (m_update M m a h 1) as [[m' l]|e]; reflexivity.
Qed.

(** CTW: the value returned by a node's update is the one log_predict computes. *)
Lemma node_agrees {S} (M : model S) fresh binary : agrees M -> forall c n a h w,
  (do (_, l, _) <- node_update M fresh binary c n a h w; Ok l) =
  (do (_, l, _) <- node_log_predict M fresh binary c n a h; Ok l).
Proof.
  intros HM. induction c as [|k c IH]; intros [base blp clp lp ch] a h w; cbn [node_update node_log_predict];
    rewrite <- (HM base a h w); destruct (m_update M base a h w) as [[b l]|e]; cbn [bind]; try reflexivity.
  destruct (child_key binary k) as [k'|e]; cbn [bind]; [|reflexivity].
  destruct (match dict_get ch k' with Some x => (x, 0%nat) | None => (new_node fresh, 1%nat) end) as [child made].
  specialize (IH child a h w).
  destruct (node_update M fresh binary c child a h w) as [[[x1 r1] m1]|e1];
    destruct (node_log_predict M fresh binary c child a h) as [[[x2 r2] m2]|e2]; cbn [bind] in *; congruence.
Qed.

Lemma ctw_agrees {S} (M : model S) fresh binary : agrees M -> agrees (CTW_model M fresh binary).
Proof.
  intros HM s a h w. cbn [CTW_model m_update m_logp].
  unfold ctw_update, ctw_log_predict, ctw_update_with, ctw_log_predict_with.
  pose proof (node_agrees M fresh binary HM (rev (mkcontext (ctw_depth s) h)) (ctw_tree s) a h w) as H.
  destruct (node_update _ _ _ _ _ _ _ _) as [[[x1 r1] m1]|e1];
    destruct (node_log_predict _ _ _ _ _ _ _) as [[[x2 r2] m2]|e2]; cbn [bind] in *; congruence.
Qed.

Lemma ctw_with_agrees {S} (M : model S) fresh binary mkctx : agrees M -> agrees (CTW_model_with M fresh binary mkctx).
Proof.
  intros HM s a h w. cbn [CTW_model_with m_update m_logp].
  unfold ctw_update_with, ctw_log_predict_with.
  pose proof (node_agrees M fresh binary HM (rev (mkctx h)) (ctw_tree s) a h w) as H.
  destruct (node_update _ _ _ _ _ _ _ _) as [[[x1 r1] m1]|e1];
    destruct (node_log_predict _ _ _ _ _ _ _) as [[[x2 r2] m2]|e2]; cbn [bind] in *; congruence.
Qed.

Lemma knode_agrees : forall c n a w,
  (do (_, l) <- knode_update c n a w; Ok l) = (do (_, l) <- knode_log_predict c n a; Ok l).
Proof.
  induction c as [|k c IH]; intros [c0 c1 blp clp lp ch0 ch1] a w; cbn [knode_update knode_log_predict];
    (destruct (bit_index a) as [b|e]; cbn [bind]; [|reflexivity]);
    (destruct (py_div _ _) as [q|e]; cbn [bind]; [|reflexivity]);
    (destruct (py_log q) as [l|e]; cbn [bind]; [|reflexivity]); [reflexivity|].
  destruct (bit_index k) as [i|e]; cbn [bind]; [|reflexivity].
  specialize (IH (match (if i then ch1 else ch0) with Some x => x | None => new_knode end) a w).
  destruct (knode_update c _ a w) as [[x1 r1]|e1]; destruct (knode_log_predict c _ a) as [[x2 r2]|e2]; cbn [bind] in *; congruence.
Qed.

Lemma ctwkt_agrees : agrees CTWKT_model.
Proof.
  intros s a h w. cbn [CTWKT_model m_update m_logp]. unfold ctwkt_update, ctwkt_log_predict.
  pose proof (knode_agrees (rev (mkcontext (ck_depth s) h)) (ck_tree s) a w) as H.
  destruct (knode_update _ _ _ _) as [[x1 r1]|e1]; destruct (knode_log_predict _ _ _) as [[x2 r2]|e2]; cbn [bind] in *; congruence.
Qed.
