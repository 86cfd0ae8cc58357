(** learners.py's Averager. *)
From Coq Require Import Lra.
From Verif Require Import Model.LearnersAvg Model.LearnersPTW Model.KT Spec.Prob Spec.KTSpec.
From Verif Require Import Proofs.RealFacts Proofs.PyFacts Proofs.ProbFacts Proofs.LogsumexpFacts.
From Verif Require Import Proofs.AveragerFacts Proofs.AveragerProps Proofs.LearnersKTFacts Proofs.KTFacts Proofs.PTWNorm.
Open Scope R_scope.

Lemma h_lse_lse l : h_log_sum_exp l = logsumexp l.
Proof.
  destruct l as [|x l]; [reflexivity|].
  rewrite h_log_sum_exp_ok, logsumexp_ok by discriminate. reflexivity.
Qed.

Notation noh := (fun h : list Z => h = []).
Notation one := (fun w : R => w = 1).

Lemma unit_ok A xs : Forall (fun x => In x A) xs -> Forall (ok_event A noh one) (unit_events xs).
Proof.
  intros H. apply Forall_forall. intros e He. apply in_map_iff in He as (x & <- & Hx).
  rewrite Forall_forall in H. repeat split. apply H, Hx.
Qed.

Section la.
  Context {S : Type} (M : model S).

  Lemma la_init_avg (ms : list (Z * S)) : la_init ms = avg_init ms.
  Proof.
    unfold la_init, avg_init. unfold py_div. destruct (Req_EM_T (INR (length ms)) 0) as [|N]; [reflexivity|].
    cbn [bind]. rewrite py_log_ok; [reflexivity|].
    apply Rdiv_lt_0_compat; [lra|]. pose proof (pos_INR (length ms)). lra.
  Qed.

  Lemma la_update_avg s x : la_update M s x = do (s', _) <- avg_update M s x [] 1; Ok s'.
  Proof.
    unfold la_update, avg_update. destruct (mapM _ (av_models s)) as [ms|]; cbn [bind]; [|reflexivity].
    rewrite h_lse_lse. destruct (logsumexp _); reflexivity.
  Qed.

  Lemma la_log_predict_avg s x :
    la_log_predict M s x = do l <- avg_log_predict M s x []; Ok (l + av_lp s).
  Proof.
    unfold la_log_predict, avg_log_predict. destruct (mapM _ (av_models s)) as [ls|]; cbn [bind]; [|reflexivity].
    rewrite h_lse_lse. destruct (logsumexp _) as [l|]; cbn [bind]; [|reflexivity]. f_equal. lra.
  Qed.

  Lemma la_run_avg xs s : la_run M s xs = do (s', _) <- run (AVG_model M) s (unit_events xs); Ok s'.
  Proof.
    revert s; induction xs as [|x xs IH]; intros s; [reflexivity|].
    cbn [la_run unit_events map run ev_sym ev_hist ev_wt AVG_model m_update].
    rewrite la_update_avg. destruct (avg_update M s x [] 1) as [[s1 l1]|]; cbn [bind]; [|reflexivity].
    rewrite IH. fold (unit_events xs). fold (AVG_model M).
    destruct (run (AVG_model M) s1 (unit_events xs)) as [[s2 l2]|]; reflexivity.
  Qed.

  Context (A : list Z) (Inv : S -> Prop).
  Hypothesis HS : steps M A noh one Inv.

  Lemma la_state ms xs : ms <> [] -> NoDup (map fst ms) -> (forall k m, In (k, m) ms -> Inv m) ->
    Forall (fun x => In x A) xs ->
    exists s0 s, la_init ms = Ok s0 /\ la_run M s0 xs = Ok s /\ avg_init ms = Ok s0 /\
      run (AVG_model M) s0 (unit_events xs) = Ok (s, av_lp s) /\
      avg_inv Inv s /\ avg_rep M (INR (length ms)) ms (unit_events xs) s /\
      exp (av_lp s) = / INR (length ms) * Rsum (map (fun km => seq_prob M (snd km) (unit_events xs)) ms).
  Proof.
    intros Hne Hnd HI Hx.
    destruct (avg_mixture M A noh one Inv HS ms (unit_events xs) Hne Hnd HI (unit_ok A xs Hx))
      as (s0 & s & l & H0 & Hr & HIs & HR & -> & Hm).
    exists s0, s. rewrite la_init_avg, la_run_avg, Hr. cbn [bind].
    split; [exact H0|]. split; [reflexivity|]. split; [exact H0|]. split; [reflexivity|].
    split; [exact HIs|]. split; [exact HR|exact Hm].
  Qed.

  Lemma la_mixture ms xs : ms <> [] -> NoDup (map fst ms) -> (forall k m, In (k, m) ms -> Inv m) ->
    Forall (fun x => In x A) xs ->
    exists s0 s, la_init ms = Ok s0 /\ la_run M s0 xs = Ok s /\
      exp (av_lp s) = / INR (length ms) * Rsum (map (fun km => seq_prob M (snd km) (unit_events xs)) ms).
  Proof.
    intros Hne Hnd HI Hx. destruct (la_state ms xs Hne Hnd HI Hx) as (s0 & s & H0 & Hr & _ & _ & _ & _ & E).
    exists s0, s. auto.
  Qed.

  (** [log_predict] is the log probability of the whole sequence with the symbol at its end *)
  Lemma la_joint ms xs a : ms <> [] -> NoDup (map fst ms) -> (forall k m, In (k, m) ms -> Inv m) ->
    Forall (fun x => In x A) xs -> In a A ->
    exists s0 s l, la_init ms = Ok s0 /\ la_run M s0 xs = Ok s /\ la_log_predict M s a = Ok l /\
      exp l = / INR (length ms) * Rsum (map (fun km => seq_prob M (snd km) (unit_events (xs ++ [a]))) ms).
  Proof.
    intros Hne Hnd HI Hx Ha.
    destruct (la_state ms xs Hne Hnd HI Hx) as (s0 & s & H0 & Hr & H0' & Hr' & HIs & HR & _).
    assert (Hx' : Forall (fun x => In x A) (xs ++ [a])) by (apply Forall_app; auto).
    destruct (la_state ms (xs ++ [a]) Hne Hnd HI Hx') as (t0 & s1 & T0 & _ & T0' & Tr' & _ & _ & E).
    rewrite H0' in T0'. injection T0' as <-.
    unfold unit_events in Tr' at 1. rewrite map_app in Tr'. fold (unit_events xs) in Tr'.
    rewrite run_app, Hr' in Tr'. cbn [bind map run AVG_model m_update ev_sym ev_hist ev_wt] in Tr'.
    destruct (avg_update_ok M A noh one Inv HS s a [] 1 HIs Ha eq_refl eq_refl) as (Hu & Hp & _).
    rewrite Hu in Tr'. cbn [bind] in Tr'. injection Tr' as Es Ev.
    exists s0, s, (av_lp s1). split; [exact H0|]. split; [exact Hr|]. split; [|exact E].
    rewrite la_log_predict_avg, Hp. cbn [bind]. f_equal. rewrite <- Ev. lra.
  Qed.

  (** ... so that the predictions add up to the probability of what was seen *)
  Lemma la_total ms xs : lawful M A noh one Inv ->
    ms <> [] -> NoDup (map fst ms) -> (forall k m, In (k, m) ms -> Inv m) ->
    Forall (fun x => In x A) xs ->
    exists s0 s ls, la_init ms = Ok s0 /\ la_run M s0 xs = Ok s /\
      mapM (la_log_predict M s) A = Ok ls /\ Rsum (map exp ls) = exp (av_lp s).
  Proof.
    intros HL Hne Hnd HI Hx.
    destruct (la_state ms xs Hne Hnd HI Hx) as (s0 & s & H0 & Hr & _ & _ & HIs & _ & E).
    exists s0, s, (map (fun a => ln (pred_prob (AVG_model M) s a []) + av_lp s) A).
    split; [exact H0|]. split; [exact Hr|].
    assert (HP : forall a, In a A -> exists l, avg_log_predict M s a [] = Ok l).
    { intros a Ha. destruct (avg_update_ok M A noh one Inv HS s a [] 1 HIs Ha eq_refl eq_refl) as (_ & -> & _). eauto. }
    split.
    - apply mapM_ok. intros a Ha. rewrite la_log_predict_avg. destruct (HP a Ha) as (l & Hl). rewrite Hl.
      cbn [bind]. unfold pred_prob. cbn [AVG_model m_logp]. rewrite Hl, ln_exp. reflexivity.
    - rewrite map_map. rewrite (Rsum_map_ext _ (fun a => pred_prob (AVG_model M) s a [] * exp (av_lp s))).
      + rewrite Rsum_scal_r.
        rewrite (law_norm _ _ _ _ _ (avg_lawful M A noh one Inv HS HL (ex_intro _ 1 eq_refl)) s [] HIs eq_refl). lra.
      + intros a Ha. rewrite exp_plus, exp_ln; [reflexivity|]. destruct (HP a Ha) as (l & Hl).
        unfold pred_prob. cbn [AVG_model m_logp]. rewrite Hl. apply exp_pos.
  Qed.

  Lemma la_map_best ms xs : ms <> [] -> NoDup (map fst ms) -> (forall k m, In (k, m) ms -> Inv m) ->
    Forall (fun x => In x A) xs ->
    exists s0 s k m0 m lm ms1 ms2,
      la_init ms = Ok s0 /\ la_run M s0 xs = Ok s /\ la_map s = Ok (k, m) /\
      ms = ms1 ++ (k, m0) :: ms2 /\ run M m0 (unit_events xs) = Ok (m, lm) /\
      (forall km, In km ms -> seq_prob M (snd km) (unit_events xs) <= seq_prob M m0 (unit_events xs)) /\
      (forall km, In km ms1 -> seq_prob M (snd km) (unit_events xs) < seq_prob M m0 (unit_events xs)).
  Proof.
    intros Hne Hnd HI Hx.
    destruct (averager_map M A noh one Inv ms (unit_events xs) HS Hne Hnd HI (unit_ok A xs Hx))
      as (s0 & s & l & k & m0 & m & lm & ms1 & ms2 & H0 & Hr & Hm & E & Hrm & H1 & H2).
    exists s0, s, k, m0, m, lm, ms1, ms2. rewrite la_init_avg, la_run_avg, Hr. cbn [bind].
    repeat split; assumption.
  Qed.

  (** [reset] after any sequence is a fresh start over the members as trained *)
  Lemma la_reset_trained ms xs : ms <> [] -> NoDup (map fst ms) -> (forall k m, In (k, m) ms -> Inv m) ->
    Forall (fun x => In x A) xs ->
    exists s0 s ms', la_init ms = Ok s0 /\ la_run M s0 xs = Ok s /\ la_reset s = la_init ms' /\
      Forall2 (fun km km' => fst km' = fst km /\ exists l, run M (snd km) (unit_events xs) = Ok (snd km', l)) ms ms'.
  Proof.
    intros Hne Hnd HI Hx.
    destruct (la_state ms xs Hne Hnd HI Hx) as (s0 & s & H0 & Hr & _ & _ & _ & [HF _] & _).
    exists s0, s, (map (fun kv => (fst kv, fst (snd kv))) (av_models s)).
    split; [exact H0|]. split; [exact Hr|]. split; [reflexivity|].
    revert HF. generalize (av_models s) as d. generalize (INR (length ms)) as n. clear.
    intros n d. revert d. induction ms as [|km ms IH]; intros d HF; inversion HF as [|x y l1 l2 (E & l & Hl & _) H2]; subst;
      constructor; [|apply IH; exact H2].
    cbn [fst snd]. split; [symmetry; exact E|]. exists l. exact Hl.
  Qed.

  Lemma la_after_reset ms xs ys : ms <> [] -> NoDup (map fst ms) -> (forall k m, In (k, m) ms -> Inv m) ->
    Forall (fun x => In x A) xs -> Forall (fun x => In x A) ys ->
    exists s0 s s1 s2, la_init ms = Ok s0 /\ la_run M s0 xs = Ok s /\ la_reset s = Ok s1 /\ la_run M s1 ys = Ok s2 /\
      exp (av_lp s2) = / INR (length ms) *
        Rsum (map (fun km => seq_prob M (snd km) (unit_events (xs ++ ys)) /
                             seq_prob M (snd km) (unit_events xs)) ms).
  Proof.
    intros Hne Hnd HI Hx Hy.
    destruct (la_reset_trained ms xs Hne Hnd HI Hx) as (s0 & s & ms' & H0 & Hr & He & HF).
    assert (Hfst : map fst ms' = map fst ms).
    { clear -HF. induction HF as [|a b l l' (E & _) _ IH]; [reflexivity|]. cbn [map]. rewrite E, IH. reflexivity. }
    assert (Hlen : length ms' = length ms) by (rewrite <- (map_length fst ms'), Hfst, map_length; reflexivity).
    assert (HI' : forall k m, In (k, m) ms' -> Inv m).
    { clear -HF HI HS Hx. induction HF as [|a b l l' (E & l0 & Hl) _ IH]; intros k m; [intros []|].
      intros [->|Hin]; [|apply (IH (fun k m H => HI k m (or_intror H)) k m Hin)].
      destruct a as [k0 m0]. cbn [snd] in Hl.
      destruct (steps_run M A noh one Inv HS m0 (unit_events xs) (HI k0 m0 (or_introl eq_refl)) (unit_ok A xs Hx))
        as (s' & l1 & Hr & HIs). rewrite Hl in Hr. injection Hr as <- <-. exact HIs. }
    destruct (la_state ms' ys) as (s1 & s2 & H1 & Hr2 & _ & _ & _ & _ & E); auto.
    { intros ->. destruct ms; [congruence|discriminate Hlen]. }
    { rewrite Hfst. exact Hnd. }
    exists s0, s, s1, s2. rewrite He. repeat split; auto. rewrite E, Hlen. f_equal.
    clear -HF. induction HF as [|a b l l' (Ek & l0 & Hl) _ IH]; [reflexivity|]. cbn [map]. rewrite !Rsum_cons, IH.
    f_equal. unfold unit_events. rewrite map_app. fold (unit_events xs) (unit_events ys).
    rewrite (seq_prob_run_app M _ _ (unit_events ys) _ _ Hl), (seq_prob_run M _ _ _ _ Hl).
    field. apply Rgt_not_eq, exp_pos.
  Qed.
End la.

(** ** The KT of learners.py as member *)
Lemma lkt_lawful A : lawful LKT_model A noh one (lkt_inv A).
Proof.
  split; [apply lkt_steps|]. intros s h (k & HR) ->. pose proof HR as (_ & _ & HI).
  rewrite <- (law_norm _ _ _ _ _ (kt_lawful A) k [] HI I). apply Rsum_map_ext. intros a _.
  unfold pred_prob. cbn [LKT_model KT_model m_logp]. rewrite (lkt_logp A s k a [] HR). reflexivity.
Qed.

Definition two_kts : list (Z * lkt) := [(1, lkt_init [0; 1]); (2, lkt_init [0; 1])]%Z.

Lemma two_kts_ok : two_kts <> [] /\ NoDup (map fst two_kts) /\
  (forall k m, In (k, m) two_kts -> lkt_inv [0; 1]%Z m).
Proof.
  assert (HA : NoDup [0; 1]%Z) by (repeat constructor; cbn; intuition discriminate).
  split; [discriminate|]. split; [repeat constructor; cbn; intuition discriminate|].
  intros k m [H|[H|[]]]; injection H as <- <-; apply lkt_inv_init; auto; discriminate.
Qed.

Lemma lkt_first : seq_prob LKT_model (lkt_init [0; 1]%Z) (unit_events [0%Z]) = / 2.
Proof.
  cbn [seq_prob unit_events map ev_sym ev_hist ev_wt LKT_model m_update].
  unfold lkt_update, lkt_log_predict, lkt_init, dict_lookup.
  cbn [lk_counts lk_steps lk_lp fold_left dict_set dict_get Z.eqb Pos.eqb bind length INR].
  rewrite !py_log_ok; [|cbn; lra|lra]. cbn [bind]. cbn [Z.add]. rewrite ln_1, Rminus_0_r, exp_ln by lra. lra.
Qed.

Lemma la_not_conditional : exists s0 s ls, la_init two_kts = Ok s0 /\ la_run LKT_model s0 [0%Z] = Ok s /\
  mapM (la_log_predict LKT_model s) [0; 1]%Z = Ok ls /\ Rsum (map exp ls) = / 2.
Proof.
  destruct two_kts_ok as (H1 & H2 & H3).
  assert (Hx : Forall (fun x => In x [0; 1]%Z) [0%Z]) by (repeat constructor; cbn; auto).
  destruct (la_total LKT_model [0; 1]%Z (lkt_inv [0; 1]%Z) (lkt_steps [0; 1]%Z noh) two_kts [0%Z] (lkt_lawful _) H1 H2 H3 Hx)
    as (s0 & s & ls & H0 & Hr & Hm & E).
  destruct (la_mixture LKT_model [0; 1]%Z (lkt_inv [0; 1]%Z) (lkt_steps [0; 1]%Z noh) two_kts [0%Z] H1 H2 H3 Hx)
    as (s0' & s' & H0' & Hr' & E'). rewrite H0 in H0'. injection H0' as <-. rewrite Hr in Hr'. injection Hr' as <-.
  exists s0, s, ls. repeat split; auto. rewrite E, E'. cbn [two_kts map snd length].
  rewrite lkt_first, Rsum_cons, Rsum_single. cbn [INR]. lra.
Qed.

Lemma lkt_twice : seq_prob LKT_model (lkt_init [0; 1]%Z) (unit_events [0; 0]%Z) = 3 / 8.
Proof.
  cbn [seq_prob unit_events map ev_sym ev_hist ev_wt LKT_model m_update].
  unfold lkt_update, lkt_log_predict, lkt_init, dict_lookup.
  cbn [lk_counts lk_steps lk_lp fold_left dict_set dict_get Z.eqb Pos.eqb bind length INR].
  rewrite !py_log_ok; [|cbn; lra|lra]. cbn [bind lk_counts lk_steps lk_lp dict_set dict_get Z.eqb Pos.eqb].
  rewrite !py_log_ok; [|cbn; lra|lra]. cbn [bind]. cbn [Z.add Pos.add].
  rewrite ln_1, Rminus_0_r, exp_minus, !exp_ln by lra. lra.
Qed.

Lemma la_reset_keeps : exists s0 s s1 s2, la_init two_kts = Ok s0 /\
  la_run LKT_model s0 [0%Z] = Ok s /\ exp (av_lp s) = / 2 /\
  la_reset s = Ok s1 /\ la_run LKT_model s1 [0%Z] = Ok s2 /\ exp (av_lp s2) = 3 / 4.
Proof.
  destruct two_kts_ok as (H1 & H2 & H3).
  assert (Hx : Forall (fun x => In x [0; 1]%Z) [0%Z]) by (repeat constructor; cbn; auto).
  destruct (la_after_reset LKT_model [0; 1]%Z (lkt_inv [0; 1]%Z) (lkt_steps [0; 1]%Z noh) two_kts [0%Z] [0%Z] H1 H2 H3 Hx Hx)
    as (s0 & s & s1 & s2 & H0 & Hr & He & Hr2 & E).
  destruct (la_mixture LKT_model [0; 1]%Z (lkt_inv [0; 1]%Z) (lkt_steps [0; 1]%Z noh) two_kts [0%Z] H1 H2 H3 Hx)
    as (s0' & s' & H0' & Hr' & E'). rewrite H0 in H0'. injection H0' as <-. rewrite Hr in Hr'. injection Hr' as <-.
  exists s0, s, s1, s2. repeat split; auto.
  - rewrite E'. cbn [two_kts map snd length]. rewrite lkt_first, Rsum_cons, Rsum_single. cbn [INR]. lra.
  - rewrite E. cbn [two_kts map snd length app]. rewrite lkt_first, lkt_twice, Rsum_cons, Rsum_single. cbn [INR]. lra.
Qed.
