(** KTBinary: lawfulness and equivalence with KT on {0,1}. *)
From Coq Require Import Lra.
From Verif Require Import Model.KT Spec.Prob Spec.KTSpec.
From Verif Require Import Proofs.RealFacts Proofs.PyFacts Proofs.ProbFacts Proofs.KTFacts.
Open Scope R_scope.

Definition ktb_inv (s : ktb) : Prop := exists c0 c1, s = [c0; c1] /\ 0 < c0 /\ 0 < c1.

Lemma ktb_lawful : lawful KTB_model [0; 1]%Z any_hist nonneg ktb_inv.
Proof.
  split.
  - intros s a h w (c0 & c1 & -> & H0 & H1) Ha _ Hw. unfold nonneg in Hw.
    assert (Hs: c0 + c1 <> 0) by lra.
    cbn [KTB_model m_update m_logp]. unfold ktb_update, ktb_log_predict.
    destruct Ha as [<-|[<-|[]]]; rewrite ?py_get2_0, ?py_get2_1; cbn [bind];
      rewrite py_div_ok by exact Hs; cbn [bind];
      rewrite py_log_ok by (apply Rdiv_lt_0_compat; lra); cbn [bind];
      rewrite ?py_set2_0, ?py_set2_1; cbn [bind];
      do 2 eexists; (split; [reflexivity|]); (split; [reflexivity|]);
      do 2 eexists; (split; [reflexivity|]); lra.
  - intros s h (c0 & c1 & -> & H0 & H1) _. cbn [map]. rewrite !Rsum_cons, Rsum_nil.
    unfold pred_prob. cbn [KTB_model m_logp]. unfold ktb_log_predict. rewrite ?py_get2_0, ?py_get2_1; cbn [bind].
    rewrite !py_div_ok by lra. cbn [bind].
    rewrite !py_log_ok by (apply Rdiv_lt_0_compat; lra). rewrite !exp_ln by (apply Rdiv_lt_0_compat; lra).
    field. lra.
Qed.

Lemma ktb_inv_init : ktb_inv ktb_init.
Proof. exists (/2), (/2). repeat split; lra. Qed.

(** ** Simulation: same values, same exceptions, for any weights whatsoever. *)
Definition ktb_sim (b : ktb) (k : kt) : Prop :=
  exists c0 c1, b = [c0; c1] /\ kt_counts k = [(0%Z, c0); (1%Z, c1)] /\ kt_sum k = c0 + c1.

Lemma ktb_sim_init : ktb_sim ktb_init (kt_init [0; 1]%Z).
Proof.
  exists (/2), (/2). unfold kt_init, ktb_init. cbn -[Rplus Rdiv INR Rsum].
  replace (1 / INR 2) with (/ 2) by (cbn; lra). repeat split.
  rewrite !Rsum_cons, Rsum_nil. lra.
Qed.

Lemma ktb_sim_logp b k a h : ktb_sim b k -> a = 0%Z \/ a = 1%Z ->
  ktb_log_predict b a h = kt_log_predict k a h.
Proof.
  intros (c0 & c1 & -> & Hc & Hs) Ha. unfold kt_log_predict, ktb_log_predict, dict_lookup.
  rewrite Hc, Hs. destruct Ha as [->| ->]; reflexivity.
Qed.

Lemma ktb_sim_update b k a h w : ktb_sim b k -> a = 0%Z \/ a = 1%Z ->
  (exists b' k' l, ktb_update b a h w = Ok (b', l) /\ kt_update k a h w = Ok (k', l) /\ ktb_sim b' k') \/
  (exists e, ktb_update b a h w = Err e /\ kt_update k a h w = Err e).
Proof.
  intros Hsim Ha. unfold ktb_update, kt_update. rewrite (ktb_sim_logp b k a h Hsim Ha).
  destruct (kt_log_predict k a h) as [l|e]; cbn [bind]; [left|right; eauto].
  destruct Hsim as (c0 & c1 & -> & Hc & Hs). unfold dict_lookup. rewrite Hc.
  destruct Ha as [->| ->]; rewrite ?py_get2_0, ?py_get2_1; cbn [bind]; rewrite ?py_set2_0, ?py_set2_1;
    cbn [bind dict_get Z.eqb Pos.eqb dict_set];
    do 3 eexists; (split; [reflexivity|]); (split; [reflexivity|]);
    do 2 eexists; (split; [reflexivity|]); cbn [kt_counts kt_sum]; (split; [reflexivity|]);
    rewrite Hs; lra.
Qed.

Definition bit_event (e : event) : Prop := ev_sym e = 0%Z \/ ev_sym e = 1%Z.

Lemma ktb_sim_run b k evs : ktb_sim b k -> Forall bit_event evs ->
  (exists b' k' l, run KTB_model b evs = Ok (b', l) /\ run KT_model k evs = Ok (k', l) /\ ktb_sim b' k') \/
  (exists e, run KTB_model b evs = Err e /\ run KT_model k evs = Err e).
Proof.
  revert b k; induction evs as [|e evs IH]; intros b k Hs Hev.
  - left. exists b, k, 0. auto.
  - inversion Hev as [|x y He Hev']; subst. cbn [run KTB_model KT_model m_update].
    destruct (ktb_sim_update b k (ev_sym e) (ev_hist e) (ev_wt e) Hs He)
      as [(b1 & k1 & l & -> & -> & Hs1)|(x & -> & ->)]; cbn [bind].
    2:{ right; eauto. }
    fold KTB_model KT_model.
    destruct (IH b1 k1 Hs1 Hev') as [(b2 & k2 & l2 & -> & -> & Hs2)|(x & -> & ->)]; cbn [bind].
    + left. do 3 eexists; eauto.
    + right; eauto.
Qed.

(** All calls observable: results of updates and of predictions afterwards. *)
Lemma ktb_equiv evs a h :
  Forall bit_event evs -> a = 0%Z \/ a = 1%Z ->
  (do (_, l) <- run KTB_model ktb_init evs; Ok l) = (do (_, l) <- run KT_model (kt_init [0;1]%Z) evs; Ok l) /\
  (do (s, _) <- run KTB_model ktb_init evs; ktb_log_predict s a h) =
  (do (s, _) <- run KT_model (kt_init [0;1]%Z) evs; kt_log_predict s a h).
Proof.
  intros Hev Ha.
  destruct (ktb_sim_run _ _ evs ktb_sim_init Hev) as [(b & k & l & -> & -> & Hs)|(e & -> & ->)]; cbn [bind].
  - split; [reflexivity|]. apply ktb_sim_logp; assumption.
  - split; reflexivity.
Qed.
