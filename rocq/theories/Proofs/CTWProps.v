(** Final forms of the statements about CTW with its default context function. *)
From Coq Require Import Lra FunctionalExtensionality.
From Verif Require Import Model.CTW Model.KT Spec.CTWSpec Spec.Ops.
From Verif Require Import Proofs.RealFacts Proofs.PyFacts Proofs.ProbFacts.
From Verif Require Import Proofs.CTWFacts Proofs.CTWTop Proofs.CTWMixture Proofs.EstimatorProps.
From Verif Require Import Proofs.KTFacts Proofs.KTBinFacts.
Open Scope R_scope.

Lemma ctx_default D : (0 < D)%nat -> (fun h => rev (mkcontext (Z.of_nat D) h)) = recent D.
Proof. intros HD. apply functional_extensionality. intros h. apply mkcontext_recent. exact HD. Qed.

Lemma child_key_ok binary K k : (binary = true -> incl K [0; 1]%Z) -> In k K -> child_key binary k = Ok k.
Proof.
  intros HB Hk. destruct binary; [|reflexivity].
  destruct (HB eq_refl k Hk) as [<-|[<-|[]]]; reflexivity.
Qed.

Section default.
  Context {S : Type} (M : model S) (fresh : S) (binary : bool).
  Context (A : list Z) (okh : list Z -> Prop) (okw : R -> Prop) (Inv : S -> Prop) (K : list Z) (D : nat).
  Hypothesis HS : steps M A okh okw Inv.
  Hypothesis Hfresh : Inv fresh.
  Hypothesis HK : NoDup K.
  Hypothesis H0 : In 0%Z K.
  Hypothesis HB : binary = true -> incl K [0; 1]%Z.
  Hypothesis HD : (0 < D)%nat.

  Definition okhK (h : list Z) : Prop := okh h /\ incl h K.

  Lemma okhK_ctx h : okhK h -> length (mkcontext (Z.of_nat D) h) = D /\ incl (mkcontext (Z.of_nat D) h) K.
  Proof.
    intros [_ Hh]. split; [apply mkcontext_length; exact HD|].
    intros x Hx. apply in_rev in Hx. rewrite mkcontext_recent in Hx by exact HD.
    apply (recent_incl K D h H0 Hh). exact Hx.
  Qed.

  Lemma steps_K : steps M A okhK okw Inv.
  Proof. intros s a h w Hs Ha [Hh _] Hw. apply HS; assumption. Qed.

  Definition ctw_inv (s : ctw (S := S)) : Prop :=
    ctw_depth s = Z.of_nat D /\ exists evs, ctw_rep M fresh A okhK okw K (mkcontext (Z.of_nat D)) D evs s.

  Lemma run_default s evs : ctw_depth s = Z.of_nat D ->
    run (CTW_model M fresh binary) s evs = run (CTW_model_with M fresh binary (mkcontext (Z.of_nat D))) s evs.
  Proof.
    revert s; induction evs as [|e evs IH]; intros s Hs; [reflexivity|]. cbn [run CTW_model CTW_model_with m_update].
    unfold ctw_update. rewrite Hs.
    destruct (ctw_update_with _ _ _ _ _ _ _ _) as [[s1 l]|x] eqn:E; cbn [bind]; [|reflexivity].
    rewrite <- IH; [reflexivity|].
    unfold ctw_update_with in E. destruct (node_update _ _ _ _ _ _ _ _) as [[[t r] made]|x]; cbn [bind] in E; [|discriminate].
    injection E as <- _. exact Hs.
  Qed.

  Lemma ctw_inv_init : ctw_inv (ctw_init fresh (Z.of_nat D)).
  Proof. split; [reflexivity|]. exists []. apply ctw_rep_init. Qed.

  Lemma ctw_steps : steps (CTW_model M fresh binary) A okhK okw ctw_inv.
  Proof.
    intros s a h w [Hd [evs Hr]] Ha Hh Hw.
    destruct (ctw_step M fresh binary A okhK okw Inv steps_K Hfresh K HK (fun k => child_key_ok binary K k HB)
                (mkcontext (Z.of_nat D)) D okhK_ctx evs s (Event a h w) Hr (conj Ha (conj Hh Hw)))
      as (s' & s'' & l & Hu & Hp & Hr' & _ & _ & Hd' & _).
    cbn [ev_sym ev_hist ev_wt] in *. exists s', l. cbn [CTW_model m_update m_logp]. unfold ctw_update, ctw_log_predict.
    rewrite Hd, Hp. cbn [bind]. split; [exact Hu|]. split; [reflexivity|]. split; [congruence|eauto].
  Qed.

  Lemma ctw_lawful : lawful M A okh okw Inv -> okw 1 -> lawful (CTW_model M fresh binary) A okhK okw ctw_inv.
  Proof.
    intros HL Hw1. split; [exact ctw_steps|]. intros s h [Hd Hr] Hh.
    rewrite <- (law_norm _ _ _ _ _ (ctw_lawful_with M fresh binary A okhK okw Inv steps_K Hfresh K HK
        (fun k => child_key_ok binary K k HB) (mkcontext (Z.of_nat D)) D okhK_ctx Hw1
        (fun s h Hs (Hh : okhK h) => law_norm _ _ _ _ _ HL s h Hs (proj1 Hh))) s h Hr Hh).
    apply Rsum_map_ext. intros a Ha. unfold pred_prob. cbn [CTW_model CTW_model_with m_logp]. unfold ctw_log_predict.
    rewrite Hd. reflexivity.
  Qed.

  Definition ok_K (e : event) : Prop := ok_event A okh okw e /\ incl (ev_hist e) K.
  Lemma ok_K_event evs : Forall ok_K evs -> Forall (ok_event A okhK okw) evs.
  Proof. apply Forall_impl. intros e ((H1 & H2 & H3) & H4). repeat split; assumption. Qed.

  (** C11 *)
  Lemma ctw_recursion evs : Forall ok_K evs ->
    exists s l, run (CTW_model M fresh binary) (ctw_init fresh (Z.of_nat D)) evs = Ok (s, l) /\ ctw_inv s /\
      exp l = ctw_prob M fresh (recent D) K D [] evs.
  Proof.
    intros Hev. apply ok_K_event in Hev.
    destruct (ctw_run_with M fresh binary A okhK okw Inv steps_K Hfresh K HK (fun k => child_key_ok binary K k HB)
        (mkcontext (Z.of_nat D)) D okhK_ctx [] evs _ (ctw_rep_init M fresh A okhK okw K _ D (Z.of_nat D)) Hev)
      as (s & l & Hr & Hrep & Hl). cbn [app] in *.
    pose proof (ctw_prob_pos M fresh A okhK okw K HK _ _ _ _ Hrep) as Hpos.
    exists s, l. split; [rewrite run_default by reflexivity; exact Hr|]. split.
    - split.
      + clear -Hr. assert (G: forall s0, ctw_depth s0 = Z.of_nat D -> forall l, run (CTW_model_with M fresh binary (mkcontext (Z.of_nat D))) s0 evs = Ok (s, l) -> ctw_depth s = Z.of_nat D).
        { clear. induction evs as [|e evs IH]; intros s0 Hs0 l; cbn [run].
          - intros H; injection H as <- _. exact Hs0.
          - cbn [CTW_model_with m_update]. unfold ctw_update_with.
            destruct (node_update _ _ _ _ _ _ _ _) as [[[t r] made]|x]; cbn [bind]; [|discriminate].
            destruct (run _ _ evs) as [[s2 l2]|x] eqn:E; cbn [bind]; [|discriminate].
            intros H; injection H as <- _. eapply IH; [|exact E]. exact Hs0. }
        eapply G; [|exact Hr]. reflexivity.
      + exists evs. exact Hrep.
    - rewrite Hl. rewrite (ctw_prob_nil M fresh _ K D [] []) by reflexivity.
      rewrite ln_1, Rminus_0_r, exp_ln by exact Hpos. rewrite <- ctx_default by exact HD. reflexivity.
  Qed.

  (** C12 *)
  Lemma ctw_total_mixture evs : Forall ok_K evs ->
    exists s l, run (CTW_model M fresh binary) (ctw_init fresh (Z.of_nat D)) evs = Ok (s, l) /\
      exp l = Rsum (map (fun t => (/ 2) ^ cost D t * tree_prob M fresh (recent D) K [] t evs) (all_trees K D)).
  Proof.
    intros Hev. destruct (ctw_recursion evs Hev) as (s & l & Hr & _ & Hl).
    exists s, l. split; [exact Hr|]. rewrite Hl. apply ctw_mixture.
  Qed.

  Lemma ctw_total_regret evs t s l : Forall ok_K evs -> is_tree K D t ->
    run (CTW_model M fresh binary) (ctw_init fresh (Z.of_nat D)) evs = Ok (s, l) ->
    - l <= - ln (tree_prob M fresh (recent D) K [] t evs) + INR (cost D t) * ln 2.
  Proof.
    intros Hev Ht Hr. destruct (ctw_recursion evs Hev) as (s' & l' & Hr' & _ & Hl).
    rewrite Hr in Hr'. injection Hr' as <- <-.
    pose proof (ctw_regret M fresh (recent D) K A okh okw Inv HS Hfresh D [] evs t) as H.
    rewrite <- Hl, ln_exp in H. apply H; [|exact Ht].
    eapply Forall_impl; [|exact Hev]. intros e [He _]. exact He.
  Qed.

  (** C13 *)
  Lemma ctw_distribution evs h : lawful M A okh okw Inv -> okw 1 -> Forall ok_K evs -> okh h -> incl h K ->
    exists s l, run (CTW_model M fresh binary) (ctw_init fresh (Z.of_nat D)) evs = Ok (s, l) /\
      (forall a, In a A -> exists p, predict (CTW_model M fresh binary) s a h = Ok p /\ 0 < p) /\
      Rsum (map (fun a => pred_prob (CTW_model M fresh binary) s a h) A) = 1.
  Proof.
    intros HL Hw1 Hev Hh HhK. destruct (ctw_recursion evs Hev) as (s & l & Hr & HI & _).
    exists s, l. split; [exact Hr|].
    apply (lawful_distribution (CTW_model M fresh binary) A okhK okw ctw_inv); auto.
    - apply ctw_lawful; assumption.
    - exists 1; exact Hw1.
    - split; assumption.
  Qed.

  (** C14 *)
  Lemma exec_default s ops : ctw_depth s = Z.of_nat D ->
    exec (ctw_update M fresh binary) (ctw_log_predict M fresh binary) s ops =
    exec (ctw_update_with M fresh binary (mkcontext (Z.of_nat D))) (ctw_log_predict_with M fresh binary (mkcontext (Z.of_nat D))) s ops.
  Proof.
    revert s; induction ops as [|o ops IH]; intros s Hs; [reflexivity|]. cbn [exec].
    assert (E: do_op (ctw_update M fresh binary) (ctw_log_predict M fresh binary) s o =
      do_op (ctw_update_with M fresh binary (mkcontext (Z.of_nat D))) (ctw_log_predict_with M fresh binary (mkcontext (Z.of_nat D))) s o).
    { destruct o; cbn [do_op]; unfold ctw_update, ctw_log_predict; rewrite Hs; reflexivity. }
    rewrite <- E. destruct (do_op _ _ s o) as [[s1 r]|x] eqn:E1; cbn [bind]; [|reflexivity].
    rewrite IH; [reflexivity|]. symmetry in E. eapply do_op_size; [exact Hs|exact E1].
  Qed.

  Definition ok_opK (o : op) : Prop :=
    match o with
    | OpUpdate a h w => In a A /\ okh h /\ okw w /\ incl h K
    | OpPredict a h => In a A /\ okh h /\ incl h K
    end.

  Lemma ctw_log_predict_transparent ops s rs ops' rs' : okw 1 -> Forall ok_opK ops ->
    exec (ctw_update M fresh binary) (ctw_log_predict M fresh binary) (ctw_init fresh (Z.of_nat D)) ops = Ok (s, rs) ->
    without ops rs ops' rs' ->
    exists s', exec (ctw_update M fresh binary) (ctw_log_predict M fresh binary) (ctw_init fresh (Z.of_nat D)) ops' = Ok (s', rs').
  Proof.
    intros Hw1 Hok Hx HW. rewrite exec_default in * by reflexivity.
    eapply (ctw_predict_transparent M fresh binary A okhK okw Inv steps_K Hfresh K HK (fun k => child_key_ok binary K k HB)
        (mkcontext (Z.of_nat D)) D okhK_ctx Hw1); [|exact Hx|exact HW].
    eapply Forall_impl; [|exact Hok]. intros [a h w|a h]; cbn.
    - intros (H1 & H2 & H3 & H4). repeat split; assumption.
    - intros (H1 & H2 & H3). repeat split; assumption.
  Qed.

  Lemma ctw_exec_ok ops : okw 1 -> Forall ok_opK ops ->
    exists s rs, exec (ctw_update M fresh binary) (ctw_log_predict M fresh binary) (ctw_init fresh (Z.of_nat D)) ops = Ok (s, rs).
  Proof.
    intros Hw1 Hok. rewrite exec_default by reflexivity.
    destruct (exec_values M fresh binary A okhK okw Inv steps_K Hfresh K HK (fun k => child_key_ok binary K k HB)
        (mkcontext (Z.of_nat D)) D okhK_ctx Hw1 [] ops _ (ctw_rep_init M fresh A okhK okw K _ D (Z.of_nat D))) as (s & H & _).
    - eapply Forall_impl; [|exact Hok]. intros [a h w|a h]; cbn.
      + intros (H1 & H2 & H3 & H4). repeat split; assumption.
      + intros (H1 & H2 & H3). repeat split; assumption.
    - eauto.
  Qed.
End default.

(** C15 *)
Lemma mkcontext_last d h : (0 < d)%nat ->
  mkcontext (Z.of_nat d) h = repeat 0%Z (d - length h) ++ skipn (length h - d) h.
Proof.
  intros Hd. unfold mkcontext, py_repeat, slice_from. f_equal.
  - f_equal. lia.
  - destruct (Nat.le_gt_cases d (length h)).
    + rewrite slice_start_neg by lia. reflexivity.
    + f_equal. unfold slice_start. destruct (- Z.of_nat d <? 0)%Z eqn:E; lia.
Qed.

Lemma mkcontext_older d old old' h : (0 < d)%nat -> (d <= length h)%nat ->
  mkcontext (Z.of_nat d) (old ++ h) = mkcontext (Z.of_nat d) (old' ++ h).
Proof.
  intros Hd Hl. rewrite !mkcontext_last by exact Hd.
  assert (G: forall o : list Z, repeat 0%Z (d - length (o ++ h)) ++ skipn (length (o ++ h) - d) (o ++ h) = skipn (length h - d) h).
  { intros o. rewrite app_length. replace (d - (length o + length h))%nat with 0%nat by lia. cbn [repeat app].
    rewrite skipn_app. rewrite skipn_all2 by lia. cbn [app]. f_equal. lia. }
  rewrite !G. reflexivity.
Qed.

(** A base model that ignores the history (KT, KTBinary, SAD). *)
Definition ignores_history {S} (M : model S) : Prop :=
  forall s a h h' w, m_update M s a h w = m_update M s a h' w /\ m_logp M s a h = m_logp M s a h'.

Lemma node_ignores {S} (M : model S) fresh binary c : ignores_history M -> forall n a h h' w,
  node_update M fresh binary c n a h w = node_update M fresh binary c n a h' w /\
  node_log_predict M fresh binary c n a h = node_log_predict M fresh binary c n a h'.
Proof.
  intros HM. induction c as [|k c IH]; intros [base blp clp lp ch] a h h' w; cbn [node_update node_log_predict];
    destruct (HM base a h h' w) as [-> ->].
  - split; reflexivity.
  - split; [destruct (m_update M base a h' w) as [[b l]|x]|destruct (m_logp M base a h')]; cbn [bind]; try reflexivity;
      destruct (child_key binary k) as [k'|]; cbn [bind]; try reflexivity.
    + destruct (match dict_get ch k' with Some x => (x, 0%nat) | None => (new_node fresh, 1%nat) end) as [child made].
      destruct (IH child a h h' w) as [-> _]. reflexivity.
    + destruct (match dict_get ch k' with Some x => (x, 0%nat) | None => (new_node fresh, 1%nat) end) as [child made].
      destruct (IH child a h h' w) as [_ ->]. reflexivity.
Qed.

Lemma ctw_ignores_older {S} (M : model S) fresh binary d s a old old' h w :
  ignores_history M -> ctw_depth s = Z.of_nat d -> (0 < d)%nat -> (d <= length h)%nat ->
  ctw_update M fresh binary s a (old ++ h) w = ctw_update M fresh binary s a (old' ++ h) w /\
  ctw_log_predict M fresh binary s a (old ++ h) = ctw_log_predict M fresh binary s a (old' ++ h).
Proof.
  intros HM Hs Hd Hl. unfold ctw_update, ctw_log_predict, ctw_update_with, ctw_log_predict_with. rewrite Hs.
  rewrite (mkcontext_older d old old' h Hd Hl).
  destruct (node_ignores M fresh binary (rev (mkcontext (Z.of_nat d) (old' ++ h))) HM (ctw_tree s) a (old ++ h) (old' ++ h) w) as [-> ->].
  split; reflexivity.
Qed.

Lemma ktb_ignores : ignores_history KTB_model.
Proof. intros s a h h' w. split; reflexivity. Qed.
Lemma kt_ignores : ignores_history KT_model.
Proof. intros s a h h' w. split; reflexivity. Qed.
Lemma sad_ignores : ignores_history SAD_model.
Proof. intros s a h h' w. split; reflexivity. Qed.

(** With depth 0 the whole history becomes the context. *)
Lemma ktb_half a h : (a = 0 \/ a = 1)%Z -> ktb_log_predict ktb_init a h = Ok (ln (/ 2)).
Proof.
  intros Ha. unfold ktb_log_predict, ktb_init.
  destruct Ha as [-> | ->]; rewrite ?py_get2_0, ?py_get2_1; cbn [bind]; rewrite py_div_ok by lra; cbn [bind];
    (rewrite py_log_ok by lra); do 2 f_equal; lra.
Qed.

Lemma ktb_after0 h : ktb_log_predict [/ 2 + 1; / 2] 0 h = Ok (ln (3 / 4)).
Proof.
  unfold ktb_log_predict. rewrite ?py_get2_0, ?py_get2_1; cbn [bind]; rewrite py_div_ok by lra; cbn [bind];
    (rewrite py_log_ok by lra); do 2 f_equal; lra.
Qed.

Lemma ctw_depth0_state : ctw_update KTB_model ktb_init true (ctw_init ktb_init 0) 0 [0%Z] 1 =
  Ok (CTW 0 (CNode [/ 2 + 1; / 2] (ln (/ 2)) (ln (/ 2)) (ln (/ 2))
              [(0%Z, CNode [/ 2 + 1; / 2] (ln (/ 2)) 0 (ln (/ 2)) [])]) 2, ln (/ 2)).
Proof.
  unfold ctw_update, ctw_init, ctw_update_with. cbn [ctw_depth ctw_tree ctw_size]. rewrite mkcontext_zero. cbn [rev app].
  unfold new_node. cbn [node_update]. cbn [KTB_model m_update].
  assert (E: ktb_update ktb_init 0 [0%Z] 1 = Ok ([/ 2 + 1; / 2], ln (/ 2))).
  { unfold ktb_update. rewrite ktb_half by (left; reflexivity). cbn [bind]. unfold ktb_init. rewrite py_get2_0. cbn [bind].
    rewrite py_set2_0. reflexivity. }
  rewrite E. cbn [bind child_key]. unfold py_index. cbn [length Z.of_nat Z.ltb Z.leb Z.compare andb Z.to_nat bind dict_get new_node].
  cbn [node_update KTB_model m_update]. rewrite E. cbn [bind dict_set].
  rewrite !Rplus_0_l, !Rminus_0_r.
  assert (Hm: log_0_5 + logsumexp2 (ln (/ 2)) (ln (/ 2)) = ln (/ 2)).
  { apply exp_inj. rewrite mix_exp, exp_ln by lra. lra. }
  rewrite Hm. reflexivity.
Qed.

Lemma ctw_depth0_refuted : exists s l0 s1 s2 l1 l2,
  ctw_update KTB_model ktb_init true (ctw_init ktb_init 0) 0 [0%Z] 1 = Ok (s, l0) /\
  recent 0 [0%Z] = recent 0 [1%Z] /\
  ctw_log_predict KTB_model ktb_init true s 0 [0%Z] = Ok (s1, l1) /\
  ctw_log_predict KTB_model ktb_init true s 0 [1%Z] = Ok (s2, l2) /\
  exp l1 = 3 / 4 /\ exp l2 = 5 / 8.
Proof.
  rewrite ctw_depth0_state. do 2 eexists. do 4 eexists. split; [reflexivity|]. split; [reflexivity|].
  unfold ctw_log_predict, ctw_log_predict_with. cbn [ctw_depth ctw_tree ctw_size]. rewrite !mkcontext_zero. cbn [rev app].
  cbn [node_log_predict KTB_model m_logp]. rewrite !ktb_after0. cbn [bind child_key].
  unfold py_index. cbn [length Z.of_nat Z.ltb Z.leb Z.compare andb Z.to_nat bind dict_get Z.eqb Pos.compare Pos.compare_cont Pos.of_succ_nat Pos.succ].
  cbn [node_log_predict KTB_model m_logp]. rewrite !ktb_after0. cbn [bind].
  change (Z.of_nat (Pos.to_nat 1)) with 1%Z. cbn [Z.eqb new_node node_log_predict KTB_model m_logp]. rewrite ktb_half by (left; reflexivity). cbn [bind].
  split; [reflexivity|]. split; [reflexivity|].
  split; rewrite exp_minus, mix_exp, !exp_plus, ?exp_minus, ?exp_plus, ?exp_0, !exp_ln by lra; field.
Qed.
