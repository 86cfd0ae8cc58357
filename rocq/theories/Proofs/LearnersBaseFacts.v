(** What the models of learners.py inherit. *)
From Coq Require Import Lra.
From Verif Require Import Model.KT Spec.LearnersBaseSpec Proofs.RealFacts Proofs.PyFacts Proofs.ProbFacts Proofs.KTFacts.
From Verif Require Import Proofs.LearnersKTFacts Proofs.LearnersAvgFacts Proofs.LearnersPTWFacts Proofs.PTWNorm Proofs.PTWFacts Proofs.LogsumexpFacts.
Open Scope R_scope.
Notation no_hist := (fun h : list Z => h = []).
Notation unit_weight := (fun w : R => w = 1).

Lemma seq_of_snoc p xs : forall past x, seq_of p past (xs ++ [x]) = seq_of p past xs * p (past ++ unit_events xs) x.
Proof.
  induction xs as [|y xs IH]; intros past x; cbn [app seq_of unit_events map].
  - rewrite app_nil_r. lra.
  - rewrite IH, <- app_assoc. cbn [app]. unfold unit_events. lra.
Qed.

Lemma kt_spec_pos A evs a : A <> [] -> Forall (fun e => 0 <= ev_wt e) evs -> 0 < kt_spec A evs a.
Proof.
  intros HA Hev. unfold kt_spec. assert (Hn : 0 < INR (length A)) by (apply lt_0_INR; destruct A; [congruence|cbn; lia]).
  assert (Hs : 0 <= seen a evs /\ 0 <= total evs).
  { unfold seen, total. induction Hev as [|e evs He Hev IH]; cbn [filter map]; rewrite ?Rsum_nil; [lra|].
    destruct (ev_sym e =? a)%Z; cbn [map]; rewrite !Rsum_cons; lra. }
  assert (0 < 1 / INR (length A)) by (apply Rdiv_lt_0_compat; lra). apply Rdiv_lt_0_compat; lra.
Qed.

Lemma unit_ok xs : Forall (fun e => 0 <= ev_wt e) (unit_events xs).
Proof. apply Forall_forall. intros e He. apply in_map_iff in He as (x & <- & _). cbn. lra. Qed.

Lemma unit_events_snoc xs x : unit_events (xs ++ [x]) = unit_events xs ++ [Event x [] 1].
Proof. unfold unit_events. rewrite map_app. reflexivity. Qed.

Lemma lkt_run A xs : NoDup A -> A <> [] -> Forall (fun x => In x A) xs ->
  exists s k l, run LKT_model (lkt_init A) (unit_events xs) = Ok (s, l) /\ lkt_rel A s k /\ kt_rep A (unit_events xs) k /\
    lk_lp s = l /\ exp l = seq_of (kt_spec A) [] xs.
Proof.
  intros HA Hne. induction xs as [|x xs IH] using rev_ind; intros Hx.
  - exists (lkt_init A), (kt_init A), 0. split; [reflexivity|]. split; [apply lkt_rel_init; assumption|].
    split; [apply kt_rep_init; assumption|]. split; [reflexivity|]. cbn. apply exp_0.
  - apply Forall_app in Hx as (Hxs & Hx). inversion Hx as [|y z Ha _]; subst.
    destruct (IH Hxs) as (s & k & l & Hr & HR & Hp & Hl & He).
    destruct (kt_rep_step A (unit_events xs) k (Event x [] 1) Hp) as (k' & Hu & Hp').
    { repeat split; cbn; [exact Ha|unfold nonneg; lra]. }
    pose proof (lkt_upd A s k x [] HR) as Hs. cbn [ev_sym ev_hist ev_wt] in Hu. rewrite Hu in Hs.
    destruct (lkt_update s x [] 1) as [[s' l']|] eqn:E; cbn in Hs; [|contradiction]. destruct Hs as (HR' & ->).
    exists s', k', (l + ln (kt_spec A (unit_events xs) x)). rewrite unit_events_snoc. split.
    { apply (run_snoc _ _ _ _ _ _ _ _ Hr). exact E. }
    split; [exact HR'|]. split; [exact Hp'|]. split.
    + unfold lkt_update in E. destruct (lkt_log_predict s x []); cbn [bind] in E; [|discriminate].
      destruct (dict_lookup (lk_counts s) x); cbn [bind] in E; [|discriminate]. injection E as <- ->. cbn. rewrite Hl. reflexivity.
    + rewrite exp_plus, He, exp_ln by (apply kt_spec_pos; [exact Hne|apply unit_ok]).
      rewrite seq_of_snoc. reflexivity.
Qed.

Lemma kt_account A xs : NoDup A -> A <> [] -> Forall (fun x => In x A) xs ->
  exists s l, run LKT_model (lkt_init A) (unit_events xs) = Ok (s, l) /\ total_loss lk_lp s = - l /\
    exp (- total_loss lk_lp s) = seq_of (kt_spec A) [] xs.
Proof.
  intros H1 H2 H3. destruct (lkt_run A xs H1 H2 H3) as (s & k & l & Hr & _ & _ & Hl & He).
  exists s, l. split; [exact Hr|]. unfold total_loss. rewrite Hl, Ropp_involutive. split; [reflexivity|exact He].
Qed.

Lemma kt_predict A xs a : NoDup A -> A <> [] -> Forall (fun x => In x A) xs -> In a A ->
  exists s l, run LKT_model (lkt_init A) (unit_events xs) = Ok (s, l) /\
    lm_predict LKT_model s a = Ok (kt_spec A (unit_events xs) a).
Proof.
  intros H1 H2 H3 Ha. destruct (lkt_run A xs H1 H2 H3) as (s & k & l & Hr & HR & Hp & _). exists s, l. split; [exact Hr|].
  unfold lm_predict. cbn [LKT_model m_logp]. rewrite (lkt_logp A s k a [] HR).
  destruct Hp as (HI & Hsum & Hget). rewrite (kt_logp_ok A k a [] _ HI (Hget a Ha)), Hsum. cbn [bind]. f_equal.
  apply exp_ln. apply (kt_spec_pos A (unit_events xs) a H2 (unit_ok xs)).
Qed.

Lemma kt_reset A s evs : run LKT_model (lkt_reset A s) evs = run LKT_model (lkt_init A) evs.
Proof. reflexivity. Qed.

Section ptw.
  Context {S : Type} (M : model S) (fresh : S) (A : list Z) (Inv : S -> Prop).
  Hypothesis HL : lawful M A no_hist unit_weight Inv.
  Hypothesis Hinv : Inv fresh.
  Let HS := law_step _ _ _ _ _ HL.
  Notation ok := (ok_event A no_hist unit_weight).
  Notation P := (ptw_prob M (fun _ => fresh) 0).

  Lemma unit_all xs : Forall (fun x => In x A) xs -> Forall ok (unit_events xs).
  Proof. intros H. apply Forall_forall. intros e He. apply in_map_iff in He as (x & <- & Hx). rewrite Forall_forall in H. repeat split. apply H, Hx. Qed.

  Lemma ptw_account D xs : Forall (fun x => In x A) xs -> (length xs <= 2 ^ D)%nat ->
    exists s l, run (LPTW_model M fresh) (lptw_init fresh D) (unit_events xs) = Ok (s, l) /\ total_loss lw_lp s = - l /\
      exp (- total_loss lw_lp s) = P D 0%nat (unit_events xs).
  Proof.
    intros Hx Hlen. destruct (lptw_recursion M fresh A Inv HS Hinv D (unit_events xs) (unit_all xs Hx)) as (s & l & Hr & He & Hl).
    { unfold unit_events. rewrite map_length. exact Hlen. }
    exists s, l. split; [exact Hr|]. unfold total_loss. rewrite Hl, Ropp_involutive. split; [reflexivity|exact He].
  Qed.

  (** The predictions are ratios of probabilities of sequences. *)
  Lemma ptw_ratio D xs a : Forall (fun x => In x A) xs -> In a A -> (length xs < 2 ^ D)%nat ->
    exists s l, run (LPTW_model M fresh) (lptw_init fresh D) (unit_events xs) = Ok (s, l) /\
      lm_predict (LPTW_model M fresh) s a = Ok (P D 0%nat (unit_events (xs ++ [a])) / P D 0%nat (unit_events xs)).
  Proof.
    intros Hx Ha Hlen.
    assert (Hlen' : (length (unit_events xs) < 2 ^ D)%nat) by (unfold unit_events; rewrite map_length; exact Hlen).
    destruct (lptw_run M fresh A Inv HS Hinv D (unit_events xs) (unit_all xs Hx) ltac:(lia)) as (s & l & Hr & HI & ->).
    exists s, (lw_lp s). split; [exact Hr|]. unfold lm_predict. cbn [LPTW_model m_logp].
    assert (Hoa : ok (Event a [] 1)) by (repeat split; exact Ha).
    destruct (lptw_step M fresh A Inv HS Hinv D (unit_events xs) (Event a [] 1) s (unit_all xs Hx) Hoa HI Hlen') as (s' & l' & Hu & HI' & Hd & Hp).
    cbn [ev_sym ev_hist ev_wt] in *. rewrite Hp. cbn [bind]. f_equal. rewrite unit_events_snoc.
    pose proof (li_lp _ _ _ _ _ HI) as E1. pose proof (li_lp _ _ _ _ _ HI') as E2. rewrite <- E1, <- E2, Hd.
    unfold Rminus. rewrite exp_plus, exp_Ropp. reflexivity.
  Qed.

  Lemma P_pos D xs : Forall (fun x => In x A) xs -> (length xs <= 2 ^ D)%nat -> 0 < P D 0%nat (unit_events xs).
  Proof. intros Hx Hlen. destruct (ptw_account D xs Hx Hlen) as (s & l & _ & _ & He). rewrite <- He. apply exp_pos. Qed.

  Lemma ptw_sum D xs : Forall (fun x => In x A) xs -> (length xs < 2 ^ D)%nat ->
    exists s l, run (LPTW_model M fresh) (lptw_init fresh D) (unit_events xs) = Ok (s, l) /\
      exists ps, mapM (lm_predict (LPTW_model M fresh) s) A = Ok ps /\ Forall (fun p => 0 < p) ps /\ Rsum ps = 1.
  Proof.
    intros Hx Hlen. destruct (ptw_account D xs Hx ltac:(lia)) as (s & l & Hr & _). exists s, l. split; [exact Hr|].
    pose proof (P_pos D xs Hx ltac:(lia)) as Hpos.
    exists (map (fun a => P D 0%nat (unit_events (xs ++ [a])) / P D 0%nat (unit_events xs)) A). split; [|split].
    - apply mapM_ok. intros a Ha. destruct (ptw_ratio D xs a Hx Ha Hlen) as (s1 & l1 & Hr1 & Hp).
      rewrite Hr in Hr1. injection Hr1 as <- <-. exact Hp.
    - apply Forall_forall. intros p Hp. apply in_map_iff in Hp as (a & <- & Ha). apply Rdiv_lt_0_compat; [|exact Hpos].
      apply P_pos; [|rewrite app_length; cbn; lia]. apply Forall_app; split; [exact Hx|repeat constructor; exact Ha].
    - unfold Rdiv. rewrite Rsum_scal_r.
      rewrite (Rsum_map_ext _ (fun a => P D 0%nat (unit_events xs ++ [Event a [] 1]))) by (intros a _; rewrite unit_events_snoc; reflexivity).
      rewrite (ptw_prob_sum M A no_hist unit_weight Inv HL (fun _ => fresh) (fun _ => Hinv) 0 D 0 (unit_events xs) [] 1 (unit_all xs Hx) eq_refl eq_refl).
      + field. lra.
      + unfold unit_events. rewrite map_length. cbn. exact Hlen.
  Qed.
End ptw.

Section stale.
  Context {S : Type} (M : model S) (fresh : S).

  Lemma lw_init_reset D : lptw_reset (lptw_init fresh D) = lptw_init fresh D.
  Proof. reflexivity. Qed.

  Lemma bb_zero i : (0 <= i)%Z -> bb 0 i = 0%Z.
  Proof. intros Hi. apply bb_small; [|exact Hi]. split; [lia|apply Z.pow_pos_nonneg; lia]. Qed.

  (** The walk at step 0 over parts that are not complete. *)
  Lemma walk_first (models : dict (S * R)) completed m lp : dict_lookup models 0 = Ok (m, lp) -> forall k i part complete, (1 <= i)%nat ->
    (forall j, (i <= j < i + k)%nat -> nth_error completed (j - 1) = Some 0) ->
    exists part', walk models completed 0 0 k (Z.of_nat i) part complete = Ok (part', complete) /\
      exp part' = exp lp + (exp part - exp lp) / 2 ^ k.
  Proof.
    intros Hm. induction k as [|k IH]; intros i part complete Hi Hc; cbn [walk].
    - exists part. split; [reflexivity|]. cbn. field.
    - rewrite bb_zero, Hm by lia. cbn [bind]. replace (Z.of_nat i - 1)%Z with (Z.of_nat (i - 1)) by lia.
      rewrite (py_get_nth completed (i - 1) 0) by (apply Hc; lia). cbn [bind]. rewrite h_lse_pair. cbn [bind].
      replace (Z.of_nat i =? 0)%Z with false by (symmetry; apply Z.eqb_neq; lia).
      replace (Z.of_nat i + 1)%Z with (Z.of_nat (i + 1)) by lia.
      destruct (IH (i + 1)%nat (log_0_5 + logsumexp2 lp (0 + part)) complete ltac:(lia)) as (p' & Hw & He).
      { intros j Hj. apply Hc. lia. }
      exists p'. split; [exact Hw|]. rewrite He, exp_plus, logsumexp2_spec, exp_ln by (pose proof (exp_pos lp); pose proof (exp_pos (0 + part)); lra).
      unfold log_0_5. rewrite exp_ln, Rplus_0_l by lra. cbn [pow]. field. apply pow_nonzero. lra.
  Qed.

  Lemma nth_repeat0 n j : (j < n)%nat -> nth_error (repeat 0 n) j = Some 0.
  Proof. intros H. rewrite (nth_error_nth' _ 0) by (rewrite repeat_length; exact H). f_equal. apply nth_repeat. Qed.

  (** update, reset, update: the finished parts of before are still there. *)
  Lemma stale D a f l : (1 <= D)%nat -> m_update M fresh a [] 1 = Ok (f, l) ->
    exists s1 l1 s2 l2, lptw_update M fresh (lptw_init fresh D) a [] 1 = Ok (s1, l1) /\ l1 = l /\
      lptw_update M fresh (lptw_reset s1) a [] 1 = Ok (s2, l2) /\
      exp l2 = exp l - (exp l - exp l * exp l) / 2 ^ D.
  Proof.
    intros HD Hu. set (p := exp l).
    assert (E1 : exists s1, lptw_update M fresh (lptw_init fresh D) a [] 1 = Ok (s1, l) /\
      s1 = LPTW D l 1 [(0%Z, (f, 0 + l))] (l :: repeat 0 D)).
    { unfold lptw_update, lptw_init, max_steps. cbn [lw_depth lw_steps lw_models lw_completed lw_lp].
      replace (0 >=? 2 ^ Z.of_nat D)%Z with false.
      2:{ symmetry. rewrite Z.geb_leb. apply Z.leb_gt. apply Z.pow_pos_nonneg; lia. }
      change (mscb 0) with 0%Z. cbn [dict_set Z.eqb mapM]. rewrite Hu. cbn [bind mapM].
      cbn [dict_lookup dict_get Z.eqb bind].
      replace (D + 1)%nat with (Datatypes.S D) by lia.
      destruct (walk_first [(0%Z, (f, 0 + l))] (repeat 0 (Datatypes.S D)) f (0 + l) eq_refl D 1 (0 + l) (0 + l) ltac:(lia)) as (p' & Hw & He).
      { intros j Hj. apply nth_repeat0. lia. }
      change (Z.of_nat 1) with 1%Z in Hw.
      rewrite Hw. cbn [bind]. rewrite (py_set_nth _ 0) by (cbn; lia). cbn [bind Z.to_nat clear_done repeat list_set].
      assert (Hp : p' = l). { apply exp_inv. rewrite He, Rplus_0_l. field. apply pow_nonzero. lra. }
      subst p'. rewrite Rplus_0_l, Rminus_0_r. eexists. split; [reflexivity|]. rewrite ?Rplus_0_l. reflexivity. }
    destruct E1 as (s1 & E1 & ->). destruct D as [|D]; [lia|].
    assert (E2 : exists s2 l2, lptw_update M fresh (lptw_reset (LPTW (Datatypes.S D) l 1 [(0%Z, (f, 0 + l))] (l :: repeat 0 (Datatypes.S D)))) a [] 1 = Ok (s2, l2) /\
      exp l2 = p - (p - p * p) / 2 ^ Datatypes.S D).
    { unfold lptw_update, lptw_reset, max_steps. cbn [lw_depth lw_steps lw_models lw_completed lw_lp].
      replace (0 >=? 2 ^ Z.of_nat (Datatypes.S D))%Z with false.
      2:{ symmetry. rewrite Z.geb_leb. apply Z.leb_gt. apply Z.pow_pos_nonneg; lia. }
      change (mscb 0) with 0%Z. cbn [dict_set Z.eqb mapM]. rewrite Hu. cbn [bind mapM].
      cbn [dict_lookup dict_get Z.eqb bind].
      cbn [walk]. rewrite bb_zero by lia. cbn [dict_lookup dict_get Z.eqb bind].
      change (1 - 1)%Z with (Z.of_nat 0). rewrite (py_get_nth _ 0 l) by reflexivity. cbn [bind].
      rewrite h_lse_pair. cbn [bind]. change (1 =? 0)%Z with false. cbn [Z.eqb]. change (1 + 1)%Z with (Z.of_nat 2).
      match goal with |- context [walk ?ms ?c 0 0 D (Z.of_nat 2) ?q ?r] =>
        destruct (walk_first ms c f (0 + l) eq_refl D 2 q r ltac:(lia)) as (p' & Hw & He) end.
      { intros j Hj. destruct j as [|[|j]]; try lia. replace (Datatypes.S (Datatypes.S j) - 1)%nat with (Datatypes.S j) by lia.
        cbn [nth_error]. apply nth_repeat0. lia. }
      rewrite Hw. cbn [bind]. change (py_set (l :: repeat 0 (Datatypes.S D)) 0 (0 + l)) with (py_set (l :: repeat 0 (Datatypes.S D)) (Z.of_nat 0) (0 + l)).
      rewrite (py_set_nth _ 0) by (cbn; lia). cbn [bind Z.to_nat clear_done list_set].
      eexists _, _. split; [reflexivity|]. rewrite Rminus_0_r, He. rewrite !Rplus_0_l.
      rewrite (exp_plus log_0_5), logsumexp2_spec, (exp_plus l l), exp_ln by (pose proof (exp_pos l); nra).
      unfold log_0_5. rewrite exp_ln by lra. fold p. cbn [pow]. field. apply pow_nonzero. lra. }
    destruct E2 as (s2 & l2 & E2 & He). exists (LPTW (Datatypes.S D) l 1 [(0%Z, (f, 0 + l))] (l :: repeat 0 (Datatypes.S D))), l, s2, l2.
    repeat apply conj; [exact E1|reflexivity|exact E2|exact He].
  Qed.
End stale.

Lemma no_sequence {S} (M : model S) make seq s : from_sequence M make seq <> Ok s.
Proof. unfold from_sequence. destruct make; cbn [bind]; [|discriminate]. change (global (lit "helpers")) with (@Err unit NameError). discriminate. Qed.

Lemma no_sequence_ok {S} (M : model S) me seq : from_sequence M (Ok me) seq = Err NameError.
Proof. reflexivity. Qed.

Lemma sad_update self symb : lsad_update self symb = Err NameError.
Proof. reflexivity. Qed.

Lemma sad_predict n symbol : lsad_log_predict (lsad_init n) symbol = Err AttributeError.
Proof. reflexivity. Qed.

(** Even with the attribute it reads. *)
Lemma sad_predict_any self symbol v : lsad_log_predict self symbol <> Ok v.
Proof.
  unfold lsad_log_predict. destruct (attr self (lit "counts")) as [c|]; cbn [bind]; [|discriminate].
  destruct (as_dict c); cbn [bind]; [|discriminate]. destruct (attr self (lit "sum_counts")) as [t|]; cbn [bind]; [|discriminate].
  destruct (as_num t); cbn [bind]; [|discriminate].
  assert (H : forall x, math_log x = Err NameError) by reflexivity.
  destruct (_ >? 0)%Z; cbv zeta; rewrite ?H; cbn [bind]; [discriminate|]. destruct (dict_get _ _); rewrite H; discriminate.
Qed.

Lemma sad_unusable self symbol : lsad_update self symbol = Err NameError /\ (forall v, lsad_log_predict self symbol <> Ok v) /\
  forall n, lsad_log_predict (lsad_init n) symbol = Err AttributeError.
Proof. repeat apply conj; [reflexivity|intros v; apply sad_predict_any|reflexivity]. Qed.
