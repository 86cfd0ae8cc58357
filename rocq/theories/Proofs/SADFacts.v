From Coq Require Import Lra.
From Verif Require Import Model.KT Spec.Prob.
From Verif Require Import Proofs.RealFacts Proofs.PyFacts Proofs.ProbFacts Proofs.LnBounds Proofs.KTFacts.
Open Scope R_scope.

Definition positive (w : R) : Prop := 0 < w.

(** [A] is the alphabet; [n] its declared size. *)
Definition sad_inv (A : list Z) (s : sad) : Prop :=
  NoDup A /\ sad_n s = Z.of_nat (length A) /\
  NoDup (map fst (sad_counts s)) /\ incl (map fst (sad_counts s)) A /\
  (forall v, In v (map snd (sad_counts s)) -> 0 < v) /\
  sad_sum s = Rsum (map snd (sad_counts s)).

Lemma sad_inv_init A : NoDup A -> sad_inv A (sad_init (Z.of_nat (length A))).
Proof. intros H. repeat split; auto; try constructor; intros x []. Qed.

Lemma sad_sum_cases A s : sad_inv A s ->
  (sad_counts s = [] /\ sad_sum s = 0) \/ (sad_counts s <> [] /\ 0 < sad_sum s).
Proof.
  intros (_ & _ & _ & _ & Hpos & Hsum). destruct (sad_counts s) as [|kv d] eqn:E.
  - left. rewrite Hsum. auto.
  - right. split; [discriminate|]. rewrite Hsum. apply Rsum_pos; [discriminate|exact Hpos].
Qed.

Lemma sad_beta_ok A s : sad_inv A s -> exists beta, sad_beta s = Ok beta /\ 0 < beta.
Proof.
  intros HI. unfold sad_beta. destruct (sad_sum_cases A s HI) as [[E H0]|[Hne Hp]].
  - rewrite H0. destruct (Rlt_dec 0 0); [lra|]. exists 1. split; [reflexivity|lra].
  - destruct (Rlt_dec 0 (sad_sum s)); [|lra].
    set (m := py_min2 (INR (length (sad_counts s))) (sad_sum s)).
    assert (Hl: 0 < INR (length (sad_counts s))).
    { apply lt_0_INR. destruct (sad_counts s); [congruence|cbn; lia]. }
    assert (Hm: 0 < m <= sad_sum s). { unfold m, py_min2. destruct (Rlt_dec _ _); lra. }
    rewrite py_div_ok by lra. cbn [bind].
    rewrite py_log_ok by (apply Rdiv_lt_0_compat; lra). cbn [bind].
    assert (Hq: 0 < ln ((sad_sum s + 1) / m)).
    { rewrite <- ln_1. apply ln_increasing; [lra|].
      apply Rmult_lt_reg_r with m; [lra|]. unfold Rdiv. rewrite Rmult_assoc, Rinv_l by lra. lra. }
    rewrite py_div_ok by lra. eexists; split; [reflexivity|]. apply Rdiv_lt_0_compat; lra.
Qed.

Lemma sad_logp_seen A s a h c beta : sad_inv A s -> sad_beta s = Ok beta -> 0 < beta ->
  dict_get (sad_counts s) a = Some c ->
  0 < c /\ sad_log_predict s a h = Ok (ln (c / (sad_sum s + beta))).
Proof.
  intros HI Hb Hbp Hg. pose proof HI as (_ & _ & _ & _ & Hpos & Hsum).
  assert (Hc: 0 < c). { apply Hpos. apply dict_get_in in Hg. apply (in_map snd) in Hg. exact Hg. }
  split; [exact Hc|].
  assert (0 <= sad_sum s). { rewrite Hsum. apply Rsum_nonneg. intros x Hx; left; auto. }
  unfold sad_log_predict. rewrite Hb. cbn [bind]. rewrite Hg.
  rewrite py_div_ok by lra. cbn [bind]. apply py_log_ok. apply Rdiv_lt_0_compat; lra.
Qed.

Lemma sad_logp_unseen A s a h beta : sad_inv A s -> sad_beta s = Ok beta -> 0 < beta ->
  dict_get (sad_counts s) a = None -> (length (sad_counts s) < length A)%nat ->
  let k := INR (length A - length (sad_counts s)) in
  0 < k /\ sad_log_predict s a h = Ok (ln (beta / (k * (sad_sum s + beta)))).
Proof.
  intros HI Hb Hbp Hg Hlen k. pose proof HI as (_ & Hn & _ & _ & Hpos & Hsum).
  assert (Hk: 0 < k) by (apply lt_0_INR; lia). split; [exact Hk|].
  assert (0 <= sad_sum s). { rewrite Hsum. apply Rsum_nonneg. intros x Hx; left; auto. }
  unfold sad_log_predict. rewrite Hb. cbn [bind]. rewrite Hg.
  replace (IZR (sad_n s - Z.of_nat (length (sad_counts s)))) with k.
  2:{ unfold k. rewrite INR_IZR_INZ. f_equal. lia. }
  assert (0 < k * (sad_sum s + beta)) by (apply Rmult_lt_0_compat; lra).
  rewrite py_div_ok by lra. cbn [bind]. apply py_log_ok. apply Rdiv_lt_0_compat; lra.
Qed.

(** every symbol seen: a symbol outside the alphabet divides by zero *)
Lemma sad_logp_exhausted A s a h beta : sad_inv A s -> sad_beta s = Ok beta ->
  dict_get (sad_counts s) a = None -> length (sad_counts s) = length A ->
  sad_log_predict s a h = Err ZeroDivisionError.
Proof.
  intros HI Hb Hg Hlen. pose proof HI as (_ & Hn & _).
  unfold sad_log_predict. rewrite Hb. cbn [bind]. rewrite Hg, Hn, Hlen, Z.sub_diag.
  unfold py_div. destruct (Req_EM_T (0 * (sad_sum s + beta)) 0) as [E|E]; [reflexivity|].
  exfalso; apply E; lra.
Qed.

Lemma sad_len_le A s : sad_inv A s -> (length (sad_counts s) <= length A)%nat.
Proof.
  intros (Hnd & _ & Hk & Hincl & _). rewrite <- (map_length fst). apply NoDup_incl_length; assumption.
Qed.

Lemma sad_len_lt A s a : sad_inv A s -> In a A -> dict_get (sad_counts s) a = None ->
  (length (sad_counts s) < length A)%nat.
Proof.
  intros HI Ha Hg. pose proof (sad_len_le A s HI).
  destruct (Nat.eq_dec (length (sad_counts s)) (length A)) as [E|E]; [|lia]. exfalso.
  destruct HI as (Hnd & _ & Hk & Hincl & _). apply dict_get_none in Hg. apply Hg.
  rewrite <- (map_length fst) in E.
  refine (NoDup_length_incl Hk _ Hincl _ Ha). lia.
Qed.

Lemma sad_step A s a h w : sad_inv A s -> In a A -> 0 < w ->
  exists s' l, sad_update s a h w = Ok (s', l) /\ sad_log_predict s a h = Ok l /\ sad_inv A s'.
Proof.
  intros HI Ha Hw. destruct (sad_beta_ok A s HI) as (beta & Hb & Hbp).
  assert (Hl: exists l, sad_log_predict s a h = Ok l).
  { destruct (dict_get (sad_counts s) a) as [c|] eqn:Hg.
    - destruct (sad_logp_seen A s a h c beta HI Hb Hbp Hg) as [_ ->]. eauto.
    - destruct (sad_logp_unseen A s a h beta HI Hb Hbp Hg (sad_len_lt A s a HI Ha Hg)) as [_ ->]. eauto. }
  destruct Hl as [l Hl]. unfold sad_update. rewrite Hl. cbn [bind].
  do 2 eexists. split; [reflexivity|]. split; [reflexivity|].
  destruct HI as (Hnd & Hn & Hk & Hincl & Hpos & Hsum).
  unfold sad_inv; cbn [sad_n sad_counts sad_sum].
  split; [exact Hnd|]. split; [exact Hn|]. split; [apply dict_set_nodup; exact Hk|].
  destruct (dict_get (sad_counts s) a) as [c|] eqn:Hg.
  - pose proof (dict_get_some_key _ _ _ Hg) as Hin.
    split; [rewrite dict_set_keys_mem by exact Hin; exact Hincl|].
    destruct (dict_set_split _ a (c + w) Hk c Hg) as (d1 & d2 & E1 & E2 & _ & _).
    rewrite E2. rewrite E1 in Hpos, Hsum. rewrite map_app in *. cbn [map snd] in *. split.
    + intros v Hv. apply in_app_iff in Hv as [Hv|[Hv|Hv]].
      * apply Hpos, in_app_iff; auto.
      * subst v. assert (0 < c) by (apply Hpos, in_app_iff; right; left; reflexivity). lra.
      * apply Hpos, in_app_iff; right; right; auto.
    + rewrite Hsum, !Rsum_app, !Rsum_cons. lra.
  - apply dict_get_none in Hg. rewrite dict_set_keys_new by exact Hg. rewrite !map_app. cbn [map fst snd].
    split.
    + intros x Hx. apply in_app_iff in Hx as [Hx|[<-|[]]]; [apply Hincl; exact Hx|exact Ha].
    + split.
      * intros v Hv. apply in_app_iff in Hv as [Hv|[<-|[]]]; [auto|lra].
      * rewrite Hsum, Rsum_app, Rsum_single. lra.
Qed.

(** ** Total predicted mass over the alphabet *)
Lemma NoDup_split_incl (K A : list Z) : NoDup A -> NoDup K -> incl K A ->
  exists U, NoDup U /\ (forall x, In x U -> In x A /\ ~ In x K) /\ (length U = length A - length K)%nat /\
            Permutation.Permutation A (K ++ U).
Proof.
  intros HA HK Hincl. exists (filter (fun x => negb (if in_dec Z.eq_dec x K then true else false)) A).
  assert (HP: Permutation.Permutation A (K ++ filter (fun x => negb (if in_dec Z.eq_dec x K then true else false)) A)).
  { apply Permutation.NoDup_Permutation.
    - exact HA.
    -
      assert (Hd: forall x, In x K -> ~ In x (filter (fun x => negb (if in_dec Z.eq_dec x K then true else false)) A)).
      { intros x Hx Hf. apply filter_In in Hf as [_ Hf]. destruct (in_dec Z.eq_dec x K); [discriminate|contradiction]. }
      revert Hd. generalize (NoDup_filter (fun x => negb (if in_dec Z.eq_dec x K then true else false)) HA).
      generalize (filter (fun x => negb (if in_dec Z.eq_dec x K then true else false)) A).
      clear -HK. intros U HU Hd. induction K as [|k K IH]; [exact HU|]. cbn [app].
      inversion HK as [|x l Hk HK']; subst. constructor.
      + rewrite in_app_iff. intros [H|H]; [contradiction|]. apply (Hd k (or_introl eq_refl) H).
      + apply IH; [exact HK'|]. intros x Hx. apply Hd; right; exact Hx.
    - intros x. rewrite in_app_iff, filter_In. split.
      + intros Hx. destruct (in_dec Z.eq_dec x K); [left; assumption|right; auto].
      + intros [Hx|[Hx _]]; [apply Hincl; exact Hx|exact Hx]. }
  repeat split.
  - apply NoDup_filter; exact HA.
  - apply filter_In in H as [H _]. exact H.
  - apply filter_In in H as [_ H]. destruct (in_dec Z.eq_dec x K); [discriminate|assumption].
  - apply Permutation.Permutation_length in HP. rewrite app_length in HP. lia.
  - exact HP.
Qed.

Lemma sad_mass A s h beta : sad_inv A s -> sad_beta s = Ok beta -> 0 < beta ->
  Rsum (map (fun a => pred_prob SAD_model s a h) A) =
  if (length (sad_counts s) <? length A)%nat then 1 else sad_sum s / (sad_sum s + beta).
Proof.
  intros HI Hb Hbp. pose proof HI as (Hnd & Hn & Hk & Hincl & Hpos & Hsum).
  assert (Hs0: 0 <= sad_sum s). { rewrite Hsum. apply Rsum_nonneg. intros x Hx; left; auto. }
  destruct (NoDup_split_incl _ A Hnd Hk Hincl) as (U & HU & HUin & HUlen & HP).
  rewrite map_length in HUlen.
  apply (Permutation.Permutation_map (fun a => pred_prob SAD_model s a h)) in HP.
  rewrite (Rsum_perm _ _ HP), map_app, Rsum_app.
  assert (Hseen: Rsum (map (fun a => pred_prob SAD_model s a h) (map fst (sad_counts s))) = sad_sum s / (sad_sum s + beta)).
  { rewrite map_map. rewrite (Rsum_map_ext _ (fun kv => snd kv * / (sad_sum s + beta))).
    - rewrite Rsum_scal_r, <- Hsum. reflexivity.
    - intros [k v] Hin. cbn [fst snd]. apply (dict_in_get _ _ _ Hk) in Hin.
      destruct (sad_logp_seen A s k h v beta HI Hb Hbp Hin) as [Hv Hl].
      unfold pred_prob. cbn [SAD_model m_logp]. rewrite Hl. apply exp_ln. apply Rdiv_lt_0_compat; lra. }
  rewrite Hseen. destruct (Nat.ltb_spec (length (sad_counts s)) (length A)) as [Hlt|Hge].
  - rewrite (Rsum_map_ext _ (fun _ => beta / (INR (length A - length (sad_counts s)) * (sad_sum s + beta)))).
    + rewrite Rsum_const, HUlen.
      assert (0 < INR (length A - length (sad_counts s))) by (apply lt_0_INR; lia). field. split; lra.
    + intros a Ha. destruct (HUin a Ha) as [HaA HaK]. apply dict_get_none in HaK.
      destruct (sad_logp_unseen A s a h beta HI Hb Hbp HaK Hlt) as [Hkp Hl].
      unfold pred_prob. cbn [SAD_model m_logp]. rewrite Hl. apply exp_ln. apply Rdiv_lt_0_compat; [lra|].
      apply Rmult_lt_0_compat; lra.
  - replace (map _ U) with (@nil R).
    + rewrite Rsum_nil. lra.
    + assert (HUl: length U = 0%nat) by lia. destruct U; [reflexivity|discriminate].
Qed.

Lemma sad_run A s evs : sad_inv A s -> Forall (ok_event A any_hist positive) evs ->
  exists s' l, run SAD_model s evs = Ok (s', l) /\ sad_inv A s'.
Proof.
  revert s; induction evs as [|e evs IH]; intros s HI Hev; cbn [run].
  - eauto.
  - inversion Hev as [|x y (Ha & _ & Hw) Hev']; subst.
    destruct (sad_step A s (ev_sym e) (ev_hist e) (ev_wt e) HI Ha Hw) as (s1 & l & Hu & _ & H1).
    cbn [SAD_model m_update]. rewrite Hu. cbn [bind]. fold SAD_model.
    destruct (IH s1 H1 Hev') as (s2 & l2 & -> & H2). cbn [bind]. eauto.
Qed.

(** The keys are exactly the symbols that occurred. *)
Lemma sad_run_keys s evs s' l x : run SAD_model s evs = Ok (s', l) ->
  In x (map fst (sad_counts s')) <-> In x (map fst (sad_counts s)) \/ In x (map ev_sym evs).
Proof.
  revert s s' l; induction evs as [|e evs IH]; intros s s' l; cbn [run SAD_model m_update map In].
  - intros H; injection H as <- <-. tauto.
  - intros H. apply bind_ok in H as ([s1 l1] & Hu & H). apply bind_ok in H as ([s2 l2] & Hr & H).
    injection H as <- <-. rewrite (IH _ _ _ Hr).
    unfold sad_update in Hu. apply bind_ok in Hu as (rv & _ & Hu). injection Hu as <- <-.
    cbn [sad_counts].
    destruct (in_dec Z.eq_dec (ev_sym e) (map fst (sad_counts s))) as [Hin|Hnin].
    + rewrite dict_set_keys_mem by exact Hin. split; [tauto|]. intros [H|[<-|H]]; auto.
    + rewrite dict_set_keys_new by exact Hnin. rewrite map_app, in_app_iff. cbn [map fst In]. tauto.
Qed.
