(** The C CTW_KT over two symbols returns what model.py's CTW_KT returns. *)
From Coq Require Import Arith FunctionalExtensionality Lra.
From Verif Require Import Model.ModelFast Model.KT Spec.Objects.
From Verif Require Import Proofs.RealFacts Proofs.PyFacts Proofs.KTFacts.
From Verif Require Import Proofs.HeapUpdate Proofs.HeapWorld Proofs.ObjectFacts.
From Verif Require Import Proofs.CTWShare Proofs.CTWKTShare Proofs.CTWFast.
Open Scope R_scope.

Lemma fupd_ext {D} N key1 key2 st1 st2 leaf node ctx : forall f : list nat -> D,
  (forall path, st1 (f path) = st2 (f path)) -> (forall c, In c ctx -> key1 N c = key2 N c) ->
  fupd N key1 st1 leaf node ctx f = fupd N key2 st2 leaf node ctx f.
Proof.
  induction ctx as [|c ctx IH]; intros f Hs Hk; cbn [fupd]; rewrite Hs; [reflexivity|].
  rewrite (Hk c (or_introl eq_refl)). destruct (st2 (f [])); cbn [bind]; [|reflexivity].
  destruct (key2 N c) as [k|]; cbn [bind]; [|reflexivity].
  rewrite IH; [reflexivity|intros; apply Hs|intros; apply Hk; right; assumption].
Qed.

Lemma fprd_ext {D} N key1 key2 pr1 pr2 pleaf pnode ctx : forall f : list nat -> D,
  (forall path, pr1 (f path) = pr2 (f path)) -> (forall c, In c ctx -> key1 N c = key2 N c) ->
  fprd N key1 pr1 pleaf pnode ctx f = fprd N key2 pr2 pleaf pnode ctx f.
Proof.
  induction ctx as [|c ctx IH]; intros f Hs Hk; cbn [fprd]; rewrite Hs; [reflexivity|].
  rewrite (Hk c (or_introl eq_refl)). destruct (pr2 (f [])); cbn [bind]; [|reflexivity].
  destruct (key2 N c) as [k|]; cbn [bind]; [|reflexivity].
  rewrite IH; [reflexivity|intros; apply Hs|intros; apply Hk; right; assumption].
Qed.

Lemma cd0_two : cd0 2 = kd0.
Proof.
  unfold cd0, d0, ktb_init. replace (1 / INR 2) with (/ 2) by (cbn; lra). reflexivity.
Qed.

Lemma sym2 a : sym 2 a -> a = 0%Z \/ a = 1%Z.
Proof. intros [H _]. lia. Qed.

Lemma key_two c : sym 2 c -> ckey 2 c = pykey 2 c.
Proof. intros H. destruct (sym2 c H) as [-> | ->]; reflexivity. Qed.

Lemma pred_two (d : kdata) k a h : drel 2 d k -> sym 2 a ->
  fpred a h d = cpred KTB_model a h d /\ forall w, fstep a h w d = cstep KTB_model a h w d.
Proof.
  intros (I & L & G & _) Ha. destruct d as [base blp clp lp]. cbn [d_base] in *.
  destruct base as [|c0 [|c1 [|c2 base]]]; try discriminate.
  assert (P: forall i c, (i < 2)%nat -> nth_error [c0; c1] i = Some c -> 0 < c).
  { intros i c Hi E. rewrite (G i Hi) in E. destruct I as (_ & P & _). apply P. apply dict_get_in in E.
    apply (in_map snd) in E. exact E. }
  assert (H0: 0 < c0) by (apply (P 0%nat); [lia|reflexivity]).
  assert (H1: 0 < c1) by (apply (P 1%nat); [lia|reflexivity]).
  assert (E: fpred a h (CData [c0; c1] blp clp lp) = cpred KTB_model a h (CData [c0; c1] blp clp lp)).
  { unfold fpred, cpred. cbn [KTB_model m_logp d_base]. unfold ctwnode_base_logp, ktb_log_predict. rewrite py_get2_0, py_get2_1.
    destruct (sym2 a Ha) as [-> | ->].
    - rewrite py_get2_0. change (to_char 0) with 0%Z. change (c_index [c0; c1] 0) with (Ok (0%nat, c0)). cbn [bind fold_left].
      rewrite py_div_ok by lra. cbn [bind].
      unfold c_log. rewrite Rplus_0_l.
      destruct (Rlt_dec 0 (c0 / (c0 + c1))) as [Hp|n]; [rewrite py_log_ok by exact Hp; reflexivity|]. exfalso. apply n. apply Rdiv_lt_0_compat; lra.
    - rewrite py_get2_1. change (to_char 1) with 1%Z. change (c_index [c0; c1] 1) with (Ok (1%nat, c1)). cbn [bind fold_left].
      rewrite py_div_ok by lra. cbn [bind].
      unfold c_log. rewrite Rplus_0_l.
      destruct (Rlt_dec 0 (c1 / (c0 + c1))) as [Hp|n]; [rewrite py_log_ok by exact Hp; reflexivity|]. exfalso. apply n. apply Rdiv_lt_0_compat; lra. }
  split; [exact E|]. intros w. unfold fpred, cpred in E. cbn [KTB_model m_logp d_base] in E.
  unfold fstep, cstep. cbn [KTB_model m_update d_base d_blp d_clp d_lp]. unfold ktb_update. rewrite E.
  destruct (ktb_log_predict [c0; c1] a h) as [l|]; cbn [bind]; [|reflexivity].
  destruct (sym2 a Ha) as [-> | ->]; reflexivity.
Qed.

Theorem fast_is_ctwkt ops : Forall (in_alphabet 2 1) ops ->
  returned (orun (cw_new 2) cw_copy cw_del (cw_update 2) (cw_log_predict 2) (CWorld [] []) ops) =
  returned (deep_run ctwkt_init ctwkt_update ctwkt_log_predict ops).
Proof.
  rewrite (proj1 (fast_world 2 ops)), ctwkt_deep, ctw_sep. unfold fsep, csep, sep.
  fold (deep_run (fnew (cd0 2)) (fup (D := kdata) 2 ckey fctx fstep cleaf cnode_) (fpr (D := kdata) 2 ckey fctx fpred cpleaf cpnode) ops).
  fold (deep_run (fnew kd0) (fup (D := kdata) 2 pykey cctx (cstep KTB_model) cleaf cnode_) (fpr (D := kdata) 2 pykey cctx (cpred KTB_model) cpleaf cpnode) ops).
  apply (deep_sim (fun (o o' : Z * (list nat -> kdata)) => o = o' /\ (1 <= fst o)%Z /\ exists t, trel 2 (snd o) t)).
  - intros d Hd. split; [unfold fnew; rewrite cd0_two; reflexivity|]. split; [exact Hd|]. exists (new_node (kt_init (syms 2))).
    intros path. rewrite tlook_new. apply drel_fresh. lia.
  - intros [d f] o' a h x (<- & Hd & t & T) (Ha & Hh & Hx). cbn [fst snd] in *.
    destruct (fctx_sym 2 d a h ltac:(lia) ltac:(lia) Ha Hh) as (ctx & Ec & Fc & Rc). specialize (Rc Hd).
    unfold fup. rewrite Ec. unfold cctx. rewrite <- Rc. cbn [bind].
    destruct (fast_update_kt 2 a h x ctx Ha Hx Fc f t T) as (f' & r & t' & m & E1 & _ & T').
    match goal with |- rrel _ (bind ?A _) (bind ?B _) => assert (E: B = A) end.
    { symmetry. apply fupd_ext.
      - intros path. apply (pred_two _ _ a h (T path) Ha).
      - intros c Hc. apply key_two. rewrite Forall_forall in Fc. apply Fc. exact Hc. }
    rewrite E, E1. cbn. split; [|reflexivity]. cbn. split; [reflexivity|]. split; [exact Hd|]. exists t'. exact T'.
  - intros [d f] o' a h (<- & Hd & t & T) (Ha & Hh). cbn [fst snd] in *.
    destruct (fctx_sym 2 d a h ltac:(lia) ltac:(lia) Ha Hh) as (ctx & Ec & Fc & Rc). specialize (Rc Hd).
    unfold fpr. rewrite Ec. unfold cctx. rewrite <- Rc. cbn [bind].
    destruct (fast_predict_kt 2 a h ctx Ha Fc f t T) as (r & t' & m & E1 & _ & T').
    match goal with |- rrel _ (bind ?A _) (bind ?B _) => assert (E: B = A) end.
    { symmetry. apply fprd_ext.
      - intros path. apply (pred_two _ _ a h (T path) Ha).
      - intros c Hc. apply key_two. rewrite Forall_forall in Fc. apply Fc. exact Hc. }
    rewrite E, E1. cbn. split; [|reflexivity]. cbn. split; [reflexivity|]. split; [exact Hd|]. exists t. exact T.
Qed.
