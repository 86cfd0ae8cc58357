(** SAD's predictions in closed form. *)
From Coq Require Import Lra.
From Verif Require Import Model.KT Spec.KTSpec.
From Verif Require Import Proofs.RealFacts Proofs.PyFacts Proofs.ProbFacts Proofs.KTFacts Proofs.SADFacts.
Open Scope R_scope.

Lemma min2_Rmin a b : py_min2 a b = Rmin a b.
Proof. unfold py_min2, Rmin. destruct (Rlt_dec b a), (Rle_dec a b); lra. Qed.

Lemma filter_none {X} (f : X -> bool) l : (forall x, In x l -> f x = false) -> filter f l = [].
Proof. induction l as [|x l IH]; intros H; [reflexivity|]. cbn [filter]. rewrite (H x (or_introl eq_refl)). apply IH. intros y Hy. apply H. right. exact Hy. Qed.

Definition sad_rep (evs : list event) (s : sad) : Prop :=
  sad_sum s = total evs /\
  (forall a, dict_get (sad_counts s) a = if in_dec Z.eq_dec a (map ev_sym evs) then Some (seen a evs) else None).

Lemma sad_rep_step evs s e s' l : sad_rep evs s -> sad_update s (ev_sym e) (ev_hist e) (ev_wt e) = Ok (s', l) ->
  sad_rep (evs ++ [e]) s'.
Proof.
  intros (Hs & Hg) Hu. unfold sad_update in Hu. apply bind_ok in Hu as (rv & _ & Hu). injection Hu as <- <-.
  split; cbn [sad_sum sad_counts]; [rewrite total_snoc, Hs; reflexivity|]. intros a.
  rewrite seen_snoc, map_app. cbn [map]. destruct (Z.eqb_spec (ev_sym e) a) as [<-|Hne].
  - rewrite dict_get_set_same, Hg. destruct (in_dec Z.eq_dec (ev_sym e) (map ev_sym evs ++ [ev_sym e])) as [_|Hn].
    2:{ exfalso. apply Hn, in_app_iff. right. left. reflexivity. }
    destruct (in_dec Z.eq_dec (ev_sym e) (map ev_sym evs)) as [|Hn]; [reflexivity|]. f_equal. f_equal.
    symmetry. unfold seen. rewrite filter_none; [apply Rsum_nil|]. intros x Hx.
    apply Z.eqb_neq. intros Heq. apply Hn. rewrite <- Heq. apply in_map, Hx.
  - rewrite dict_get_set_other by congruence. rewrite Hg, Rplus_0_r.
    destruct (in_dec Z.eq_dec a (map ev_sym evs)) as [H|H], (in_dec Z.eq_dec a (map ev_sym evs ++ [ev_sym e])) as [H2|H2]; try reflexivity.
    + exfalso. apply H2, in_app_iff. left. exact H.
    + exfalso. apply in_app_iff in H2 as [H2|[H2|[]]]; [contradiction|congruence].
Qed.

Lemma sad_rep_run evs0 s evs s' l : sad_rep evs0 s -> run SAD_model s evs = Ok (s', l) -> sad_rep (evs0 ++ evs) s'.
Proof.
  revert evs0 s s' l; induction evs as [|e evs IH]; intros evs0 s s' l Hr; cbn [run SAD_model m_update].
  - intros [= <- _]. rewrite app_nil_r. exact Hr.
  - intros H. apply bind_ok in H as ([s1 l1] & Hu & H). apply bind_ok in H as ([s2 l2] & Hrun & H).
    injection H as <- _. pose proof (IH (evs0 ++ [e]) s1 s2 l2 (sad_rep_step _ _ _ _ _ Hr Hu) Hrun) as HH.
    rewrite <- app_assoc in HH. exact HH.
Qed.

Lemma sad_rep_len A evs s : sad_inv A s -> sad_rep evs s -> length (sad_counts s) = distinct evs.
Proof.
  intros (_ & _ & Hnd & _) (_ & Hg). unfold distinct. rewrite <- (map_length fst).
  assert (Hiff : forall x, In x (map fst (sad_counts s)) <-> In x (map ev_sym evs)).
  { intros x. specialize (Hg x). destruct (in_dec Z.eq_dec x (map ev_sym evs)) as [H|H].
    - split; [auto|]. intros _. apply (dict_get_some_key _ _ _ Hg).
    - apply dict_get_none in Hg. tauto. }
  apply Nat.le_antisymm; apply NoDup_incl_length.
  - exact Hnd.
  - intros x Hx. apply nodup_In, Hiff, Hx.
  - apply NoDup_nodup.
  - intros x Hx. apply Hiff. apply nodup_In in Hx. exact Hx.
Qed.

Lemma sad_rep_beta A evs s : sad_inv A s -> sad_rep evs s -> sad_beta s = Ok (escape evs) /\ 0 < escape evs.
Proof.
  intros HI HR. destruct (sad_beta_ok A s HI) as (beta & Hb & Hpos). enough (beta = escape evs) as -> by (split; assumption).
  pose proof HR as (Hs & Hg). unfold sad_beta in Hb. rewrite (sad_rep_len A evs s HI HR), min2_Rmin, Hs in Hb.
  destruct evs as [|e evs].
  - unfold total in Hb. cbn [map] in Hb. rewrite Rsum_nil in Hb. destruct (Rlt_dec 0 0); [lra|]. injection Hb as <-. reflexivity.
  - assert (0 < total (e :: evs)).
    { destruct (sad_sum_cases A s HI) as [[E _]|[_ Hp]]; [exfalso|lra].
      specialize (Hg (ev_sym e)). rewrite E in Hg. cbn [dict_get] in Hg.
      destruct (in_dec Z.eq_dec (ev_sym e) (map ev_sym (e :: evs))) as [|Hn]; [discriminate|]. apply Hn. left. reflexivity. }
    unfold escape. set (t := total (e :: evs)) in *. set (m := Rmin (INR (distinct (e :: evs))) t) in *.
    destruct (Rlt_dec 0 t); [|contradiction].
    apply bind_ok in Hb as (q & Hq & Hb). apply bind_ok in Hb as (lq & Hlq & Hb).
    unfold py_div in Hq. destruct (Req_EM_T m 0); [discriminate|]. injection Hq as <-.
    unfold py_log in Hlq. destruct (Rlt_dec 0 ((t + 1) / m)); [|discriminate]. injection Hlq as <-.
    unfold py_div in Hb. destruct (Req_EM_T _ 0); [discriminate|]. injection Hb as <-. reflexivity.
Qed.

Lemma sad_closed_form A evs a h : NoDup A -> Forall (fun e => In (ev_sym e) A /\ 0 < ev_wt e) evs -> In a A ->
  exists s l, run SAD_model (sad_init (Z.of_nat (length A))) evs = Ok (s, l) /\
    sad_log_predict s a h = Ok (ln (sad_spec (length A) evs a)) /\ 0 < sad_spec (length A) evs a.
Proof.
  intros HA Hev Ha.
  assert (Hev' : Forall (ok_event A any_hist positive) evs).
  { eapply Forall_impl; [|exact Hev]. intros e (H1 & H2). split; [exact H1|]. split; [exact I|exact H2]. }
  destruct (sad_run A _ evs (sad_inv_init A HA) Hev') as (s & l & Hr & HI). exists s, l. split; [exact Hr|].
  assert (HR : sad_rep evs s).
  { apply (sad_rep_run [] (sad_init (Z.of_nat (length A))) evs s l); [|exact Hr]. split; [reflexivity|].
    intros x. cbn. reflexivity. }
  destruct (sad_rep_beta A evs s HI HR) as (Hb & Hbp). pose proof (sad_rep_len A evs s HI HR) as Hlen.
  pose proof HR as (Hs & Hg). specialize (Hg a).
  assert (Ht : 0 <= total evs).
  { rewrite <- Hs. destruct (sad_sum_cases A s HI) as [[_ ->]|[_ ?]]; lra. }
  unfold sad_spec. destruct (in_dec Z.eq_dec a (map ev_sym evs)).
  - destruct (sad_logp_seen A s a h _ _ HI Hb Hbp Hg) as (Hc & ->). rewrite Hs. split; [reflexivity|].
    apply Rdiv_lt_0_compat; lra.
  - destruct (sad_logp_unseen A s a h _ HI Hb Hbp Hg (sad_len_lt A s a HI Ha Hg)) as (Hk & ->).
    rewrite Hs, Hlen. rewrite Hlen in Hk. split; [reflexivity|]. apply Rdiv_lt_0_compat; [exact Hbp|].
    apply Rmult_lt_0_compat; lra.
Qed.
