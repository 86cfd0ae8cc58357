(** CTW_KT with shared nodes does what CTW with KTBinary base models and shared nodes does. *)
From Coq Require Import Arith FunctionalExtensionality Lra.
From Verif Require Import Model.CTWHeap Model.KT Spec.Objects.
From Verif Require Import Proofs.PyFacts Proofs.HeapFacts Proofs.HeapEngine Proofs.HeapUpdate Proofs.HeapWorld Proofs.ObjectFacts.
From Verif Require Import Proofs.CTWKTFacts Proofs.CTWShare.
Open Scope R_scope.

Notation KD := (cdata ktb).
Notation kd0 := (CTWShare.d0 ktb_init).

Lemma hk_update_engine a hist w ctx : forall h p,
  hk_update ctx h p a w =
  hupd kd0 2 pykey (cstep KTB_model a hist w) cleaf cnode_ ctx h p.
Proof.
  assert (B: forall (h : heap kdata) p, hk_update_base h p a w =
    (do c <- hget h p; do d <- (cstep KTB_model a hist w : kdata -> result kdata) (c_data c); put_data h p d)).
  { intros h p. unfold hk_update_base, cstep. cbn [KTB_model m_update]. unfold ktb_update.
    destruct (hget h p) as [[[s blp clp lp] kids rc]|]; cbn [bind c_data d_base d_blp d_clp d_lp]; [|reflexivity].
    change (hk_logp s a) with (ktb_log_predict s a hist).
    destruct (ktb_log_predict s a hist) as [l|]; cbn [bind]; [|reflexivity].
    destruct (py_get s a) as [x|]; cbn [bind]; [|reflexivity].
    destruct (py_set s a (x + w)) as [s'|]; reflexivity. }
  revert B. change (cdata ktb) with kdata in *. generalize (cstep KTB_model a hist w : kdata -> result kdata).
  intros st B.
  induction ctx as [|c ctx IH]; intros h p; cbn [hk_update hupd]; rewrite B; unfold kdata, ktb in *;
    (destruct (hget h p) as [cp|] eqn:Hp; cbn [bind]; [|reflexivity]);
    (destruct (st (c_data cp)) as [d1|]; cbn [bind]; [|reflexivity]);
    (destruct (put_data h p d1) as [h1|] eqn:E1; cbn [bind]; [|reflexivity]);
    destruct (put_data_get _ _ _ _ E1) as (cp' & Hp' & Hp1); rewrite Hp in Hp'; injection Hp' as <-; rewrite Hp1;
    cbn [bind c_data c_kids].
  - reflexivity.
  - rewrite py_index_len. destruct (pykey (length (c_kids cp)) c) as [k|] eqn:Ek; cbn [bind]; [|reflexivity].
    rewrite py_get_key, Ek. cbn [bind]. unfold getchild. rewrite Hp1. cbn [bind c_kids].
    destruct (nth_error (c_kids cp) k) as [slot|]; cbn [bind]; [|reflexivity].
    match goal with |- bind ?A _ = bind ?B _ => assert (EB: B = A) by reflexivity end.
    rewrite EB. clear EB.
    match goal with |- bind ?X _ = _ => destruct X as [[h2 q]|] end; cbn [bind]; [|reflexivity].
    rewrite <- IH. destruct (hk_update ctx h2 q a w) as [[h3 r]|]; cbn [bind]; [|reflexivity].
    destruct (hget h3 p) as [c3|]; reflexivity.
Qed.

Lemma hk_predict_engine a hist ctx : forall h p,
  hk_log_predict ctx h p a = hprd kd0 2 pykey (cpred KTB_model a hist) cpleaf cpnode ctx h p.
Proof.
  induction ctx as [|c ctx IH]; intros h p; cbn [hk_log_predict hprd]; unfold kdata, ktb in *;
    (destruct (hget h p) as [[[s blp clp lp] kids rc]|] eqn:Hp; cbn [bind c_data c_kids]; [|reflexivity]);
    unfold cpred at 1; cbn [KTB_model m_logp d_base d_blp d_clp d_lp];
    change (hk_logp s a) with (ktb_log_predict s a hist);
    (destruct (ktb_log_predict s a hist) as [l|]; cbn [bind]; [|reflexivity]).
  - reflexivity.
  - rewrite py_index_len. destruct (pykey (length kids) c) as [k|] eqn:Ek; cbn [bind]; [|reflexivity].
    rewrite py_get_key, Ek. cbn [bind].
    destruct (nth_error kids k) as [[q|]|]; cbn [bind]; [| |reflexivity].
    + rewrite <- IH. destruct (hk_log_predict ctx h q a) as [[h3 r]|]; reflexivity.
    + unfold hk_new. cbn [halloc].
      match goal with |- bind (bind ?A ?F) _ = bind ?B _ => assert (EB: B = bind A F) by reflexivity; rewrite EB; clear EB;
        destruct A as [h4|] end; cbn [bind]; [|reflexivity].
      rewrite <- IH. destruct (hk_log_predict ctx h4 (length h) a) as [[h3 r]|]; reflexivity.
Qed.

Definition kproj (w : kworld) : heap KD * list (option (Z * ptr)) := (kw_heap w, kw_objs w).

Lemma kt_eng ops w :
  rrel (fun x y => kproj (fst x) = fst y /\ snd x = snd y)
    (orun kw_new kw_copy kw_del kw_update kw_log_predict w ops)
    (ceng KTB_model ktb_init (kproj w) ops).
Proof.
  unfold ceng, eng.
  assert (OP: forall w i, kobj w i = eobj (kproj w) i) by reflexivity.
  apply (orun_sim (fun w x => kproj w = x)) with (okn := fun _ => True) (oku := fun _ _ _ => True) (okp := fun _ _ => True).
  - intros w1 w2 d <- _. reflexivity.
  - intros w1 w2 i <-. unfold kw_copy, ecopy. rewrite OP. destruct (eobj (kproj w1) i) as [[d p]|]; cbn [bind]; [|reflexivity].
    change (hk_copy (kw_heap w1) p) with (hcopy (fst (kproj w1)) p).
    destruct (hcopy (fst (kproj w1)) p) as [[h q]|]; reflexivity.
  - intros w1 w2 i <-. unfold kw_del, edel. rewrite OP. destruct (eobj (kproj w1) i) as [[d p]|]; reflexivity.
  - intros w1 w2 i a h x <- _. unfold kw_update, eupd. rewrite OP. destruct (eobj (kproj w1) i) as [[d p]|]; cbn [bind cctx]; [|reflexivity].
    rewrite (hk_update_engine a h x). change (kw_heap w1) with (fst (kproj w1)).
    destruct (hupd _ _ _ _ _ _ _ (fst (kproj w1)) p) as [[h' r]|]; cbn; [|reflexivity]. split; reflexivity.
  - intros w1 w2 i a h <- _. unfold kw_log_predict, eprd. rewrite OP. destruct (eobj (kproj w1) i) as [[d p]|]; cbn [bind cctx]; [|reflexivity].
    rewrite (hk_predict_engine a h). change (kw_heap w1) with (fst (kproj w1)).
    destruct (hprd _ _ _ _ _ _ _ (fst (kproj w1)) p) as [[h' r]|]; cbn; [|reflexivity]. split; reflexivity.
  - reflexivity.
  - apply okop_any.
Qed.

Lemma ctwkt_deep ops :
  returned (deep_run ctwkt_init ctwkt_update ctwkt_log_predict ops) =
  returned (deep_run (ctw_init ktb_init) (ctw_update KTB_model ktb_init true) (ctw_log_predict KTB_model ktb_init true) ops).
Proof.
  apply (deep_sim ctwkt_sim) with (okn := fun _ => True) (oku := fun _ _ _ => True) (okp := fun _ _ => True).
  - intros d _. split; [reflexivity|apply ksim_new].
  - intros k s a h x Hs _. pose proof (ctwkt_op_sim (Ops.OpUpdate a h x) k s Hs) as H. cbn [Ops.do_op] in H.
    destruct (ctwkt_update k a h x) as [[k' r]|], (ctw_update KTB_model ktb_init true s a h x) as [[s' r']|]; cbn in *; try contradiction; auto.
    destruct H. split; assumption.
  - intros k s a h Hs _. pose proof (ctwkt_op_sim (Ops.OpPredict a h) k s Hs) as H. cbn [Ops.do_op] in H.
    destruct (ctwkt_log_predict k a h) as [[k' r]|], (ctw_log_predict KTB_model ktb_init true s a h) as [[s' r']|]; cbn in *; try contradiction; auto.
    destruct H. split; assumption.
  - apply okop_any.
Qed.

Theorem ctwkt_copies ops :
  returned (orun kw_new kw_copy kw_del kw_update kw_log_predict (KWorld [] []) ops) =
  returned (deep_run ctwkt_init ctwkt_update ctwkt_log_predict ops).
Proof.
  rewrite ctwkt_deep, <- ctw_copies.
  pose proof (kt_eng ops (KWorld [] [])) as H. pose proof (ctw_eng KTB_model ktb_init ops (World [] [])) as H'.
  change (wproj (World [] [])) with (kproj (KWorld [] [])) in H'.
  destruct (orun kw_new _ _ _ _ _ ops) as [[w rs]|], (ceng _ _ _ ops) as [[w' rs']|], (orun (w_new _) _ _ _ _ _ ops) as [[w'' rs'']|];
    cbn in *; try contradiction; [|congruence].
  destruct H as [_ ->]. destruct H' as [_ ->]. reflexivity.
Qed.
