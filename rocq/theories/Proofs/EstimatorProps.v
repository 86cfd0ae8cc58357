(** Final forms of the statements about single-symbol estimators. *)
From Coq Require Import Lra Permutation.
From Verif Require Import Model.KT Spec.KTSpec.
From Verif Require Import Proofs.RealFacts Proofs.PyFacts Proofs.ProbFacts.
From Verif Require Import Proofs.KTFacts Proofs.KTBinFacts Proofs.KTRedundancy Proofs.SADFacts.
Open Scope R_scope.

Lemma kt_ok_events A evs : Forall (fun e => In (ev_sym e) A /\ 0 <= ev_wt e) evs ->
  Forall (ok_event A any_hist nonneg) evs.
Proof. intros H. eapply Forall_impl; [|exact H]. intros e [H1 H2]. repeat split; auto. Qed.

Lemma lawful_distribution {S} (M : model S) A okh okw Inv s h : lawful M A okh okw Inv -> (exists w, okw w) ->
  Inv s -> okh h ->
  (forall a, In a A -> exists p, predict M s a h = Ok p /\ 0 < p) /\
  Rsum (map (fun a => pred_prob M s a h) A) = 1.
Proof.
  intros HL [w Hw] HI Hh. split.
  - intros a Ha. destruct (law_step _ _ _ _ _ HL s a h w HI Ha Hh Hw) as (s' & l & _ & Hp & _).
    exists (exp l). unfold predict. rewrite Hp. split; [reflexivity|apply exp_pos].
  - apply (law_norm _ _ _ _ _ HL s h HI Hh).
Qed.

Lemma kt_distribution A evs h :
  NoDup A -> A <> [] -> Forall (fun e => In (ev_sym e) A /\ 0 <= ev_wt e) evs ->
  exists s l, run KT_model (kt_init A) evs = Ok (s, l) /\
    (forall a, In a A -> exists p, predict KT_model s a h = Ok p /\ 0 < p) /\
    Rsum (map (fun a => pred_prob KT_model s a h) A) = 1.
Proof.
  intros Hnd Hne Hev. apply kt_ok_events in Hev.
  destruct (lawful_run _ _ _ _ _ (kt_lawful A) (kt_init A) evs (kt_inv_init A Hnd Hne) Hev) as (s & l & Hr & HI).
  exists s, l. split; [exact Hr|].
  apply (lawful_distribution KT_model A any_hist nonneg (kt_inv A)); auto using kt_lawful.
  - exists 1. unfold nonneg; lra.
  - exact I.
Qed.

Lemma kt_init_counts_inv A counts : NoDup A -> A <> [] ->
  (forall a, In a A -> exists c, dict_get counts a = Some c /\ 0 < c) ->
  exists s, kt_init_counts A counts = Ok s /\ kt_inv A s.
Proof.
  intros Hnd Hne Hc. set (g := fun a => match dict_get counts a with Some c => (a, c) | None => (a, 0) end).
  unfold kt_init_counts. rewrite (mapM_ok _ g).
  2:{ intros a Ha. destruct (Hc a Ha) as (c & Hg & _). unfold g, dict_lookup. rewrite Hg. reflexivity. }
  cbn [bind]. eexists; split; [reflexivity|].
  assert (Hk: map fst (map g A) = A).
  { clear. induction A as [|a A IH]; [reflexivity|]. cbn [map]. rewrite IH. f_equal. unfold g.
    destruct (dict_get counts a); reflexivity. }
  pose proof (fold_dict_set_app (fst (A:=Z) (B:=R)) snd (map g A) []) as Hf.
  assert (Hid: map (fun x : Z * R => (fst x, snd x)) (map g A) = map g A).
  { rewrite <- map_id. apply map_ext. intros [? ?]; reflexivity. }
  rewrite Hf, Hid by (rewrite ?Hk; auto). cbn [app].
  repeat split; cbn [kt_counts kt_sum]; auto.
  intros v Hv. rewrite map_map in Hv. apply in_map_iff in Hv as (a & <- & Ha).
  destruct (Hc a Ha) as (c & Hg & Hp). unfold g. rewrite Hg. exact Hp.
Qed.

Lemma kt_distribution_counts A counts evs h :
  NoDup A -> A <> [] -> (forall a, In a A -> exists c, dict_get counts a = Some c /\ 0 < c) ->
  Forall (fun e => In (ev_sym e) A /\ 0 <= ev_wt e) evs ->
  exists s0 s l, kt_init_counts A counts = Ok s0 /\ run KT_model s0 evs = Ok (s, l) /\
    (forall a, In a A -> exists p, predict KT_model s a h = Ok p /\ 0 < p) /\
    Rsum (map (fun a => pred_prob KT_model s a h) A) = 1.
Proof.
  intros Hnd Hne Hc Hev. apply kt_ok_events in Hev.
  destruct (kt_init_counts_inv A counts Hnd Hne Hc) as (s0 & H0 & HI0).
  destruct (lawful_run _ _ _ _ _ (kt_lawful A) s0 evs HI0 Hev) as (s & l & Hr & HI).
  exists s0, s, l. split; [exact H0|]. split; [exact Hr|].
  apply (lawful_distribution KT_model A any_hist nonneg (kt_inv A)); auto using kt_lawful.
  - exists 1. unfold nonneg; lra.
  - exact I.
Qed.

Lemma kt_closed A evs :
  NoDup A -> A <> [] -> Forall (fun e => In (ev_sym e) A /\ 0 <= ev_wt e) evs ->
  exists s l, run KT_model (kt_init A) evs = Ok (s, l) /\
    (forall a h, In a A -> predict KT_model s a h = Ok (kt_spec A evs a)) /\
    (forall a h w, ~ In a A -> m_logp KT_model s a h = Err KeyError /\ m_update KT_model s a h w = Err KeyError).
Proof.
  intros Hnd Hne Hev. apply kt_ok_events in Hev.
  destruct (kt_closed_form A evs Hnd Hne Hev) as (s & l & Hr & H1 & H2).
  exists s, l. split; [exact Hr|]. split; [|exact H2].
  intros a h Ha. unfold predict. cbn [KT_model m_logp]. rewrite (H1 a h Ha). cbn [bind].
  rewrite exp_ln; [reflexivity|]. unfold kt_spec. apply Rdiv_lt_0_compat.
  - assert (0 < 1 / INR (length A)).
    { apply Rdiv_lt_0_compat; [lra|]. apply lt_0_INR. destruct A; [congruence|cbn; lia]. }
    assert (0 <= seen a evs); [|lra]. unfold seen. apply Rsum_nonneg. intros x Hx.
    apply in_map_iff in Hx as (e & <- & He). apply filter_In in He as [He _].
    rewrite Forall_forall in Hev. apply (Hev e He).
  - assert (0 <= total evs); [|lra]. apply Rsum_nonneg. intros x Hx.
    apply in_map_iff in Hx as (e & <- & He). rewrite Forall_forall in Hev. apply (Hev e He).
Qed.

Lemma kt_exchangeable A w evs evs' :
  NoDup A -> A <> [] -> 0 <= w -> Permutation evs evs' ->
  Forall (fun e => In (ev_sym e) A /\ ev_wt e = w) evs ->
  run KT_model (kt_init A) evs = run KT_model (kt_init A) evs'.
Proof.
  intros Hnd Hne Hw HP Hev. apply (kt_exchangeable_from A w); auto using kt_inv_init.
  eapply Forall_impl; [|exact Hev]. intros e [H1 H2]. repeat split; auto.
Qed.

Lemma ktb_unit_run xs : bits xs -> exists s l, run KTB_model ktb_init (unit_events xs) = Ok (s, l).
Proof.
  intros Hb. destruct (lawful_run _ _ _ _ _ ktb_lawful ktb_init (unit_events xs) ktb_inv_init) as (s & l & Hr & _); [|eauto].
  apply ok_unit_events. eapply Forall_impl; [|exact Hb]. cbn. intros x [->| ->]; auto.
Qed.

(** The same bound for KTBinary, through the equivalence. *)
Lemma ktb_redundancy xs theta s l : bits xs -> xs <> [] -> 0 <= theta <= 1 ->
  run KTB_model ktb_init (unit_events xs) = Ok (s, l) ->
  0 < coin_prob theta xs ->
  - l <= - ln (coin_prob theta xs) + / 2 * ln (INR (length xs)) + ln 2.
Proof.
  intros Hb Hne Ht Hr Hc.
  assert (Hbe: Forall bit_event (unit_events xs)).
  { unfold unit_events. apply Forall_map. exact Hb. }
  destruct (ktb_sim_run _ _ _ ktb_sim_init Hbe) as [(b' & k' & l' & H1 & H2 & _)|(e & H1 & _)].
  - rewrite Hr in H1. injection H1 as <- <-. eapply kt_redundancy; eauto.
  - rewrite Hr in H1. discriminate.
Qed.

(** ** SAD *)
Lemma sad_ok_events A evs : Forall (fun e => In (ev_sym e) A /\ 0 < ev_wt e) evs ->
  Forall (ok_event A any_hist positive) evs.
Proof. intros H. eapply Forall_impl; [|exact H]. intros e [H1 H2]. repeat split; auto. Qed.

Lemma sad_reach A evs : NoDup A -> Forall (fun e => In (ev_sym e) A /\ 0 < ev_wt e) evs ->
  exists s l beta, run SAD_model (sad_init (Z.of_nat (length A))) evs = Ok (s, l) /\ sad_inv A s /\
    sad_beta s = Ok beta /\ 0 < beta /\
    (forall x, In x (map fst (sad_counts s)) <-> In x (map ev_sym evs)).
Proof.
  intros Hnd Hev. apply sad_ok_events in Hev.
  destruct (sad_run A _ evs (sad_inv_init A Hnd) Hev) as (s & l & Hr & HI).
  destruct (sad_beta_ok A s HI) as (beta & Hb & Hpos).
  exists s, l, beta. split; [exact Hr|]. split; [exact HI|]. split; [exact Hb|]. split; [exact Hpos|].
  intros x; split.
  - intros Hx. apply (sad_run_keys _ _ _ _ x Hr) in Hx. cbn in Hx. tauto.
  - intros Hx. apply (sad_run_keys _ _ _ _ x Hr). auto.
Qed.

Lemma sad_normalised A evs h : NoDup A -> Forall (fun e => In (ev_sym e) A /\ 0 < ev_wt e) evs ->
  (exists a, In a A /\ ~ In a (map ev_sym evs)) ->
  exists s l, run SAD_model (sad_init (Z.of_nat (length A))) evs = Ok (s, l) /\
    (forall a, In a A -> exists p, predict SAD_model s a h = Ok p /\ 0 < p) /\
    Rsum (map (fun a => pred_prob SAD_model s a h) A) = 1.
Proof.
  intros Hnd Hev (u & HuA & Hu).
  destruct (sad_reach A evs Hnd Hev) as (s & l & beta & Hr & HI & Hb & Hpos & Hk).
  exists s, l. split; [exact Hr|]. split.
  - intros a Ha. destruct (sad_step A s a h 1 HI Ha ltac:(lra)) as (s' & la & _ & Hp & _).
    exists (exp la). unfold predict. cbn [SAD_model m_logp]. rewrite Hp. split; [reflexivity|apply exp_pos].
  - rewrite (sad_mass A s h beta HI Hb Hpos).
    replace (length (sad_counts s) <? length A)%nat with true; [reflexivity|].
    symmetry. apply Nat.ltb_lt. apply (sad_len_lt A s u HI HuA). apply dict_get_none.
    rewrite Hk. exact Hu.
Qed.

Lemma sad_all_seen_deficit A evs h : NoDup A -> A <> [] -> Forall (fun e => In (ev_sym e) A /\ 0 < ev_wt e) evs ->
  (forall a, In a A -> In a (map ev_sym evs)) ->
  exists s l, run SAD_model (sad_init (Z.of_nat (length A))) evs = Ok (s, l) /\
    Rsum (map (fun a => pred_prob SAD_model s a h) A) < 1.
Proof.
  intros Hnd Hne Hev Hall.
  destruct (sad_reach A evs Hnd Hev) as (s & l & beta & Hr & HI & Hb & Hpos & Hk).
  exists s, l. split; [exact Hr|]. rewrite (sad_mass A s h beta HI Hb Hpos).
  replace (length (sad_counts s) <? length A)%nat with false.
  2:{ symmetry. apply Nat.ltb_ge. rewrite <- (map_length fst (sad_counts s)).
      apply NoDup_incl_length; [exact Hnd|]. intros a Ha. apply Hk, Hall, Ha. }
  destruct (sad_sum_cases A s HI) as [[E _]|[_ Hs]].
  - exfalso. destruct A as [|a A]; [congruence|]. specialize (Hall a (or_introl eq_refl)).
    apply Hk in Hall. rewrite E in Hall. destruct Hall.
  - apply (Rmult_lt_reg_r (sad_sum s + beta)); [lra|]. unfold Rdiv. rewrite Rmult_assoc, Rinv_l by lra. lra.
Qed.

Lemma sad_all_seen_refuted : exists A evs s l h, NoDup A /\
  Forall (fun e => In (ev_sym e) A /\ 0 < ev_wt e) evs /\
  run SAD_model (sad_init (Z.of_nat (length A))) evs = Ok (s, l) /\
  Rsum (map (fun a => pred_prob SAD_model s a h) A) <> 1.
Proof.
  assert (Hnd: NoDup [0; 1]%Z) by (repeat constructor; cbn; intuition discriminate).
  assert (Hev: Forall (fun e => In (ev_sym e) [0; 1]%Z /\ 0 < ev_wt e) (unit_events [0; 1]%Z)).
  { repeat constructor; cbn; auto; lra. }
  destruct (sad_all_seen_deficit [0; 1]%Z (unit_events [0; 1]%Z) [] Hnd ltac:(discriminate) Hev) as (s & l & Hr & Hlt).
  { cbn. tauto. }
  exists [0; 1]%Z, (unit_events [0; 1]%Z), s, l, []. repeat split; auto. lra.
Qed.

(** A symbol outside the alphabet, once every symbol was seen, makes SAD raise. *)
Lemma sad_outside_raises A evs h w a : NoDup A -> Forall (fun e => In (ev_sym e) A /\ 0 < ev_wt e) evs ->
  (forall b, In b A -> In b (map ev_sym evs)) -> ~ In a A ->
  exists s l, run SAD_model (sad_init (Z.of_nat (length A))) evs = Ok (s, l) /\
    m_logp SAD_model s a h = Err ZeroDivisionError /\ m_update SAD_model s a h w = Err ZeroDivisionError.
Proof.
  intros Hnd Hev Hall Ha.
  destruct (sad_reach A evs Hnd Hev) as (s & l & beta & Hr & HI & Hb & Hpos & Hk).
  exists s, l. split; [exact Hr|].
  assert (E: m_logp SAD_model s a h = Err ZeroDivisionError).
  { apply (sad_logp_exhausted A s a h beta HI Hb).
    - apply dict_get_none. rewrite Hk. intros Hin. apply Ha.
      apply in_map_iff in Hin as (e & <- & He). rewrite Forall_forall in Hev. apply (Hev e He).
    - apply Nat.le_antisymm; [apply (sad_len_le A s HI)|].
      rewrite <- (map_length fst (sad_counts s)). apply NoDup_incl_length; [exact Hnd|].
      intros b Hb'. apply Hk, Hall, Hb'. }
  split; [exact E|]. cbn [SAD_model m_logp m_update] in *. unfold sad_update. rewrite E. reflexivity.
Qed.
