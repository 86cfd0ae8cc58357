From Coq Require Import Lra Permutation.
From Verif Require Import Model.KT Spec.Prob Spec.KTSpec.
From Verif Require Import Proofs.RealFacts Proofs.PyFacts Proofs.ProbFacts.
Open Scope R_scope.

Definition nonneg (w : R) : Prop := 0 <= w.
Definition any_hist (h : list Z) : Prop := True.

(** ** Invariant: the keys are the alphabet, counts are positive, the sum is their sum. *)
Definition kt_inv (A : list Z) (s : kt) : Prop :=
  map fst (kt_counts s) = A /\ (forall v, In v (map snd (kt_counts s)) -> 0 < v) /\
  kt_sum s = Rsum (map snd (kt_counts s)) /\ NoDup A /\ A <> [].

Lemma kt_inv_sum_pos A s : kt_inv A s -> 0 < kt_sum s.
Proof.
  intros (HA & Hpos & Hsum & _ & Hne). rewrite Hsum. apply Rsum_pos; [|exact Hpos].
  intros H. apply map_eq_nil in H. rewrite H in HA. cbn in HA. congruence.
Qed.

Lemma kt_logp_ok A s a h c :
  kt_inv A s -> dict_get (kt_counts s) a = Some c ->
  kt_log_predict s a h = Ok (ln (c / kt_sum s)).
Proof.
  intros HI Hg. pose proof (kt_inv_sum_pos A s HI) as Hs.
  destruct HI as (HA & Hpos & Hsum & _).
  assert (Hc: 0 < c). { apply Hpos. apply dict_get_in in Hg. apply (in_map snd) in Hg. exact Hg. }
  unfold kt_log_predict, dict_lookup. rewrite Hg. cbn [bind].
  rewrite py_div_ok by lra. cbn [bind]. apply py_log_ok. apply Rdiv_lt_0_compat; assumption.
Qed.

Lemma kt_logp_missing s a h : dict_get (kt_counts s) a = None -> kt_log_predict s a h = Err KeyError.
Proof. intros H. unfold kt_log_predict, dict_lookup. rewrite H. reflexivity. Qed.

Lemma kt_update_ok A s a h w c :
  kt_inv A s -> dict_get (kt_counts s) a = Some c -> 0 <= w ->
  kt_update s a h w = Ok (KT (dict_set (kt_counts s) a (c + w)) (kt_sum s + w), ln (c / kt_sum s)) /\
  kt_inv A (KT (dict_set (kt_counts s) a (c + w)) (kt_sum s + w)).
Proof.
  intros HI Hg Hw. split.
  - unfold kt_update. rewrite (kt_logp_ok A s a h c HI Hg). cbn [bind].
    unfold dict_lookup. rewrite Hg. reflexivity.
  - destruct HI as (HA & Hpos & Hsum & Hnd & Hne).
    pose proof (dict_get_some_key _ _ _ Hg) as Hk.
    assert (Hnd': NoDup (map fst (kt_counts s))) by (rewrite HA; exact Hnd).
    destruct (dict_set_split (kt_counts s) a (c + w) Hnd' c Hg) as (d1 & d2 & E1 & E2 & _ & _).
    unfold kt_inv; cbn [kt_counts kt_sum]. repeat split; auto.
    + rewrite dict_set_keys_mem by exact Hk. exact HA.
    + rewrite E2. rewrite E1 in Hpos. rewrite map_app in *. cbn [map snd] in *.
      intros v Hv. apply in_app_iff in Hv as [Hv|[Hv|Hv]].
      * apply Hpos. apply in_app_iff; left; exact Hv.
      * subst v. assert (0 < c) by (apply Hpos; apply in_app_iff; right; left; reflexivity). lra.
      * apply Hpos. apply in_app_iff; right; right; exact Hv.
    + rewrite Hsum, E2, E1, !map_app. cbn [map snd]. rewrite !Rsum_app, !Rsum_cons. lra.
Qed.

Lemma kt_inv_init A : NoDup A -> A <> [] -> kt_inv A (kt_init A).
Proof.
  intros Hnd Hne. unfold kt_init.
  pose proof (fold_dict_set_app (fun a : Z => a) (fun _ => 1 / INR (length A)) A []) as H.
  cbn beta in H. rewrite H; [|rewrite map_id; exact Hnd|intros x _ []].
  unfold kt_inv; cbn [kt_counts kt_sum app]. rewrite !map_map. cbn [fst snd].
  assert (0 < INR (length A)). { apply lt_0_INR. destruct A; [congruence|cbn; lia]. }
  repeat split; auto.
  - apply map_id.
  - intros v Hv. apply in_map_iff in Hv as (x & <- & _). apply Rdiv_lt_0_compat; lra.
  - unfold dict_values. rewrite map_map. reflexivity.
Qed.

Lemma kt_inv_norm A s h : kt_inv A s -> Rsum (map (fun a => pred_prob KT_model s a h) A) = 1.
Proof.
  intros HI. pose proof (kt_inv_sum_pos A s HI) as Hs.
  assert (Hnd: NoDup (map fst (kt_counts s))). { destruct HI as (HA & _ & _ & Hnd & _). rewrite HA; exact Hnd. }
  pose proof HI as (HA & Hpos & Hsum & _).
  rewrite <- HA at 1. rewrite map_map.
  rewrite (Rsum_map_ext _ (fun kv => snd kv * / kt_sum s)).
  - rewrite Rsum_scal_r, <- Hsum. apply Rinv_r. lra.
  - intros [k v] Hin. cbn [fst snd]. unfold pred_prob. cbn [KT_model m_logp].
    rewrite (kt_logp_ok A s k h v HI) by (apply dict_in_get; assumption).
    apply exp_ln. apply Rdiv_lt_0_compat; [|exact Hs]. apply Hpos. apply (in_map snd) in Hin. exact Hin.
Qed.

Lemma kt_lawful A : lawful KT_model A any_hist nonneg (kt_inv A).
Proof.
  split.
  - intros s a h w HI Ha _ Hw.
    assert (Hk: In a (map fst (kt_counts s))). { destruct HI as (HA & _). rewrite HA; exact Ha. }
    destruct (dict_get_key _ _ Hk) as [c Hc].
    destruct (kt_update_ok A s a h w c HI Hc Hw) as [Hu HI'].
    do 2 eexists. cbn [KT_model m_update m_logp]. split; [exact Hu|]. split; [|exact HI'].
    apply (kt_logp_ok A); assumption.
  - intros s h HI _. apply kt_inv_norm; exact HI.
Qed.

(** ** Closed form *)
Lemma seen_nil a : seen a [] = 0. Proof. reflexivity. Qed.
Lemma seen_snoc a evs e :
  seen a (evs ++ [e]) = seen a evs + (if (ev_sym e =? a)%Z then ev_wt e else 0).
Proof.
  unfold seen. rewrite filter_app, map_app, Rsum_app. cbn [filter].
  destruct (ev_sym e =? a)%Z; cbn [map]; rewrite ?Rsum_single, ?Rsum_nil; reflexivity.
Qed.
Lemma total_snoc evs e : total (evs ++ [e]) = total evs + ev_wt e.
Proof. unfold total. rewrite map_app, Rsum_app. cbn [map]. rewrite Rsum_single. reflexivity. Qed.

Definition kt_rep (A : list Z) (evs : list event) (s : kt) : Prop :=
  kt_inv A s /\ kt_sum s = 1 + total evs /\
  forall a, In a A -> dict_get (kt_counts s) a = Some (1 / INR (length A) + seen a evs).

Lemma kt_rep_init A : NoDup A -> A <> [] -> kt_rep A [] (kt_init A).
Proof.
  intros Hnd Hne. pose proof (kt_inv_init A Hnd Hne) as HI. split; [exact HI|].
  assert (Hl: 0 < INR (length A)). { apply lt_0_INR. destruct A; [congruence|cbn; lia]. }
  unfold kt_init.
  pose proof (fold_dict_set_app (fun a : Z => a) (fun _ => 1 / INR (length A)) A []) as H.
  cbn beta in H. rewrite H; [|rewrite map_id; exact Hnd|intros x _ []]. cbn [app kt_counts kt_sum].
  split.
  - unfold dict_values. rewrite map_map. cbn [snd]. rewrite Rsum_const. unfold total; cbn [map].
    rewrite Rsum_nil. field. lra.
  - intros a Ha. rewrite seen_nil, Rplus_0_r. apply dict_in_get.
    + rewrite map_map. cbn [fst]. rewrite map_id. exact Hnd.
    + apply in_map_iff. exists a; auto.
Qed.

Lemma kt_rep_step A evs s e :
  kt_rep A evs s -> ok_event A any_hist nonneg e ->
  exists s', kt_update s (ev_sym e) (ev_hist e) (ev_wt e) = Ok (s', ln (kt_spec A evs (ev_sym e))) /\
             kt_rep A (evs ++ [e]) s'.
Proof.
  intros (HI & Hsum & Hget) (Ha & _ & Hw).
  pose proof (Hget _ Ha) as Hg.
  destruct (kt_update_ok A s (ev_sym e) (ev_hist e) (ev_wt e) _ HI Hg Hw) as [Hu HI'].
  eexists; split.
  - rewrite Hu. unfold kt_spec. rewrite <- Hsum. reflexivity.
  - split; [exact HI'|]. cbn [kt_sum kt_counts]. split.
    + rewrite total_snoc, Hsum. lra.
    + intros a Haa. rewrite seen_snoc. destruct (Z.eqb_spec (ev_sym e) a) as [<-|Hne].
      * rewrite dict_get_set_same. f_equal. lra.
      * rewrite dict_get_set_other by congruence. rewrite Hget by exact Haa. f_equal. lra.
Qed.

Lemma kt_rep_run A evs evs0 s :
  kt_rep A evs0 s -> Forall (ok_event A any_hist nonneg) evs ->
  exists s' l, run KT_model s evs = Ok (s', l) /\ kt_rep A (evs0 ++ evs) s'.
Proof.
  revert evs0 s; induction evs as [|e evs IH]; intros evs0 s Hr Hev; cbn [run].
  - rewrite app_nil_r. eauto.
  - inversion Hev as [|x y He Hev']; subst. cbn [KT_model m_update].
    destruct (kt_rep_step A evs0 s e Hr He) as (s1 & Hu & Hr1). rewrite Hu. cbn [bind].
    destruct (IH _ _ Hr1 Hev') as (s2 & l & Hrun & Hr2). rewrite Hrun. cbn [bind].
    do 2 eexists; split; [reflexivity|]. rewrite <- app_assoc in Hr2. exact Hr2.
Qed.

Lemma kt_closed_form A evs :
  NoDup A -> A <> [] -> Forall (ok_event A any_hist nonneg) evs ->
  exists s l, run KT_model (kt_init A) evs = Ok (s, l) /\
    (forall a h, In a A -> kt_log_predict s a h = Ok (ln (kt_spec A evs a))) /\
    (forall a h w, ~ In a A -> kt_log_predict s a h = Err KeyError /\ kt_update s a h w = Err KeyError).
Proof.
  intros Hnd Hne Hev.
  destruct (kt_rep_run A evs [] (kt_init A) (kt_rep_init A Hnd Hne) Hev) as (s & l & Hr & HI & Hsum & Hget).
  cbn [app] in *. exists s, l. split; [exact Hr|]. split.
  - intros a h Ha. rewrite (kt_logp_ok A s a h _ HI (Hget a Ha)), Hsum. reflexivity.
  - intros a h w Ha. assert (Hn: dict_get (kt_counts s) a = None).
    { apply dict_get_none. destruct HI as (HA & _). rewrite HA; exact Ha. }
    unfold kt_update. rewrite (kt_logp_missing s a h Hn). split; reflexivity.
Qed.

(** ** Exchangeability *)
Lemma kt_two_steps A s x y h1 h2 w :
  kt_inv A s -> In x A -> In y A -> 0 <= w ->
  exists s1 l1 s2 l2 s3 l3 l4,
    kt_update s x h1 w = Ok (s1, l1) /\ kt_update s1 y h2 w = Ok (s2, l2) /\
    kt_update s y h2 w = Ok (s3, l3) /\ kt_update s3 x h1 w = Ok (s2, l4) /\
    l1 + l2 = l3 + l4 /\ kt_inv A s2.
Proof.
  intros HI Hx Hy Hw.
  pose proof HI as (HA & Hpos & _ & Hnd & _).
  assert (Hkx: In x (map fst (kt_counts s))) by (rewrite HA; exact Hx).
  assert (Hky: In y (map fst (kt_counts s))) by (rewrite HA; exact Hy).
  destruct (dict_get_key _ _ Hkx) as [cx Hcx]. destruct (dict_get_key _ _ Hky) as [cy Hcy].
  destruct (kt_update_ok A s x h1 w cx HI Hcx Hw) as [Ux I1].
  destruct (kt_update_ok A s y h2 w cy HI Hcy Hw) as [Uy I3].
  pose proof (kt_inv_sum_pos A s HI) as Hs.
  assert (Hcxp: 0 < cx). { apply Hpos. apply dict_get_in in Hcx. apply (in_map snd) in Hcx. exact Hcx. }
  assert (Hcyp: 0 < cy). { apply Hpos. apply dict_get_in in Hcy. apply (in_map snd) in Hcy. exact Hcy. }
  destruct (Z.eq_dec x y) as [<-|Hne].
  - rewrite Hcx in Hcy. injection Hcy as <-.
    set (s1 := KT (dict_set (kt_counts s) x (cx + w)) (kt_sum s + w)) in *.
    assert (Hg1: dict_get (kt_counts s1) x = Some (cx + w)) by (cbn; apply dict_get_set_same).
    destruct (kt_update_ok A s1 x h2 w _ I1 Hg1 Hw) as [U2 I2].
    destruct (kt_update_ok A s1 x h1 w _ I1 Hg1 Hw) as [U2' _].
    do 7 eexists. split; [exact Ux|]. split; [exact U2|]. split; [exact Uy|]. split; [exact U2'|].
    split; [reflexivity|exact I2].
  - set (s1 := KT (dict_set (kt_counts s) x (cx + w)) (kt_sum s + w)) in *.
    set (s3 := KT (dict_set (kt_counts s) y (cy + w)) (kt_sum s + w)) in *.
    assert (Hg1: dict_get (kt_counts s1) y = Some cy) by (cbn; rewrite dict_get_set_other; auto).
    assert (Hg3: dict_get (kt_counts s3) x = Some cx) by (cbn; rewrite dict_get_set_other; auto).
    destruct (kt_update_ok A s1 y h2 w _ I1 Hg1 Hw) as [U2 I2].
    destruct (kt_update_ok A s3 x h1 w _ I3 Hg3 Hw) as [U4 I4].
    assert (Hcomm: dict_set (kt_counts s1) y (cy + w) = dict_set (kt_counts s3) x (cx + w)).
    { cbn [s1 s3 kt_counts]. clear -Hkx Hky Hne. revert Hkx Hky.
      generalize (cx + w) (cy + w); intros u v. generalize (kt_counts s).
      intros d; induction d as [|[k z] d IH]; cbn [map fst In dict_set]; [tauto|].
      intros Hkx Hky.
      destruct (Z.eqb_spec k x) as [Ekx|Ekx]; destruct (Z.eqb_spec k y) as [Eky|Eky];
        cbn [dict_set]; try congruence.
      - destruct (Z.eqb_spec x y); [congruence|]. destruct (Z.eqb_spec k x); congruence.
      - destruct (Z.eqb_spec k y); [|congruence]. destruct (Z.eqb_spec y x); congruence.
      - destruct (Z.eqb_spec k y); [congruence|]. destruct (Z.eqb_spec k x); [congruence|].
        f_equal. apply IH; tauto. }
    cbn [s1 s3 kt_sum] in U2, U4. rewrite <- Hcomm in U4. fold s1 in U2.
    do 7 eexists. split; [exact Ux|]. split; [exact U2|]. split; [exact Uy|]. split; [exact U4|].
    split; [|exact I2].
    rewrite <- !ln_mult; try (apply Rdiv_lt_0_compat; lra). f_equal. field. split; lra.
Qed.

Lemma kt_exchangeable_from A w evs evs' s :
  Permutation evs evs' -> kt_inv A s ->
  Forall (ok_event A any_hist (fun v => v = w)) evs -> 0 <= w ->
  run KT_model s evs = run KT_model s evs'.
Proof.
  intros HP; revert s; induction HP as [|e l l' HP IH|e1 e2 l|l1 l2 l3 HP1 IH1 HP2 IH2];
    intros s HI Hev Hw.
  - reflexivity.
  - inversion Hev as [|x y (Ha & Hh & Hww) Hev']; subst. cbn [run].
    destruct (law_step _ _ _ _ _ (kt_lawful A) s _ (ev_hist e) (ev_wt e) HI Ha I Hw) as (s1 & l1 & Hu & _ & H1).
    rewrite Hu. cbn [bind]. rewrite (IH s1 H1 Hev' Hw). reflexivity.
  - inversion Hev as [|x y (Ha1 & _ & Hw1) Hev']; subst.
    inversion Hev' as [|x y (Ha2 & _ & Hw2) Hev'']; subst.
    cbn [run KT_model m_update]. rewrite Hw2.
    destruct (kt_two_steps A s (ev_sym e2) (ev_sym e1) (ev_hist e2) (ev_hist e1) (ev_wt e2) HI Ha1 Ha2 Hw)
      as (s1 & l1 & s2 & l2 & s3 & l3 & l4 & U1 & U2 & U3 & U4 & Hl & HI2).
    rewrite U1, U3. cbn [bind]. rewrite U2, U4. cbn [bind].
    fold KT_model.
    destruct (run KT_model s2 l) as [[s5 l5]|x]; cbn [bind]; [|reflexivity].
    f_equal. f_equal. lra.
  - rewrite (IH1 s HI Hev Hw). apply IH2; auto.
    eapply Permutation_Forall; [exact HP1|exact Hev].
Qed.
