(** Statements about ctw.py's Averager in the form used by the property file. *)
From Coq Require Import Lra.
From Verif Require Import Model.CtwFMN Model.CtwCTW Model.Averager Spec.CtwFMNSpec Spec.CtwSpec Spec.PTWSpec.
From Verif Require Import Proofs.RealFacts Proofs.PyFacts Proofs.ProbFacts Proofs.AveragerFacts Proofs.EquivFacts Proofs.FMNFacts Proofs.CtwAveragerFacts Proofs.CtwSADFacts Proofs.CtwPTWFacts Proofs.CtwPTWVar Proofs.CtwKTFacts Proofs.KTFacts Proofs.CtwCTWTop.
Open Scope R_scope.
Notation bare := (fun h : list Z => h = []).

Lemma averager_same_as_model {S} (Q : probseq S) reset : 
  (forall s a h w s' l, m_update (q_model Q) s a h w = Ok (s', l) -> q_lp Q s' = q_lp Q s + l) ->
  (forall s, q_lp Q (reset s) = 0) -> forall ms, ms <> [] ->
  exists s0 a0, qavg_init reset ms = Ok s0 /\ avg_init (number_from 0 (map reset ms)) = Ok a0 /\
    same_values (q_model (QAVG_class Q)) s0 (AVG_model (without_history (q_model Q))) a0 (fun _ => True).
Proof.
  intros Hlaw Hr0 ms Hne. pose proof (qavg_init_sim Q reset Hr0 ms) as G.
  assert (E : exists s0, qavg_init reset ms = Ok s0).
  { unfold qavg_init.
    assert (Hn : 0 < INR (length ms)) by (apply lt_0_INR; destruct ms; [congruence|cbn; lia]).
    rewrite py_div_ok by lra. cbn [bind].
    rewrite py_log_ok by (unfold Rdiv; rewrite Rmult_1_l; apply Rinv_0_lt_compat, Hn). cbn [bind]. eauto. }
  destruct E as (s0 & E). rewrite E in G. cbn [bind] in G. exists s0, (as_avg Q s0).
  split; [exact E|]. split; [symmetry; exact G|]. apply qavg_same, Hlaw.
Qed.

Section avg.
  Context {S : Type} (Q : probseq S) (reset : S -> S) (A : list Z) (okw : R -> Prop) (Inv : S -> Prop).
  Hypothesis HR : running_total Q reset.
  Hypothesis HS : steps (q_model Q) A bare okw Inv.
  Hypothesis Hri : forall s, Inv s -> Inv (reset s).
  Notation AM := (q_model (QAVG_class Q)).
  Notation ok := (ok_event A bare okw).

  Lemma averager_mixture ms evs : ms <> [] -> Forall Inv ms -> Forall ok evs ->
    exists s0 s l, qavg_init reset ms = Ok s0 /\ run AM s0 evs = Ok (s, l) /\
      exp l = / INR (length ms) * Rsum (map (fun m => seq_prob (q_model Q) m evs) ms) /\
      Forall2 (fed Q reset evs) ms (qa_models s) /\ qa_lp s = l.
  Proof.
    intros Hne HI Hev. destruct HR as [Hlaw Hz Hid Hu Hl].
    destruct (qavg_mixture0 Q reset Hlaw Hz A okw Inv HS Hri ms evs Hne HI Hev) as (s0 & s & l & E0 & Er & _ & Hexp & HF).
    exists s0, s, l. split; [exact E0|]. split; [exact Er|]. split; [|split; [exact HF|]].
    - rewrite Hexp. do 2 f_equal. apply map_ext. intros m. apply (reset_seq_prob Q reset Hu m evs (Hid m)).
    - assert (Hacc : forall evs s s' l, run AM s evs = Ok (s', l) -> qa_lp s' = qa_lp s + l).
      { clear. induction evs as [|e evs IH]; intros s s' l Er; cbn [run] in Er; [injection Er as -> <-; lra|].
        destruct (m_update AM s _ _ _) as [[s1 l1]|] eqn:E1; cbn [bind] in Er; [|discriminate].
        destruct (run AM s1 evs) as [[s2 l2]|] eqn:E2; cbn [bind] in Er; [|discriminate].
        injection Er as -> <-. apply qavg_law in E1. cbn [QAVG_class q_lp] in E1. rewrite (IH _ _ _ E2), E1. lra. }
      rewrite (Hacc _ _ _ _ Er). destruct (qavg_init_ok Q reset Hz Inv Hri ms Hne HI) as (s1 & E1 & _ & H0 & _).
      rewrite E0 in E1. injection E1 as <-. lra.
  Qed.

  Lemma averager_regret ms evs m s0 s l : Forall Inv ms -> Forall ok evs -> In m ms ->
    qavg_init reset ms = Ok s0 -> run AM s0 evs = Ok (s, l) ->
    - l <= - ln (seq_prob (q_model Q) m evs) + ln (INR (length ms)).
  Proof.
    intros HI Hev Hm E0 Er. assert (Hne : ms <> []) by (destruct ms; [destruct Hm|discriminate]).
    destruct (averager_mixture ms evs Hne HI Hev) as (s0' & s' & l' & E0' & Er' & Hexp & _).
    rewrite E0 in E0'. injection E0' as <-. rewrite Er in Er'. injection Er' as <- <-.
    assert (Hn : 0 < INR (length ms)) by (apply lt_0_INR; destruct ms; [congruence|cbn; lia]).
    assert (Hpos : forall m, In m ms -> 0 < seq_prob (q_model Q) m evs).
    { intros m0 H0. rewrite Forall_forall in HI. eapply steps_seq_prob_pos; eauto. }
    assert (Hge : / INR (length ms) * seq_prob (q_model Q) m evs <= exp l).
    { rewrite Hexp. apply Rmult_le_compat_l; [left; apply Rinv_0_lt_compat, Hn|].
      apply Rsum_ge_elem; [|apply (in_map (fun m => seq_prob (q_model Q) m evs)), Hm].
      intros x Hx. apply in_map_iff in Hx as (m0 & <- & Hm0). left. apply Hpos, Hm0. }
    assert (Hln : ln (/ INR (length ms) * seq_prob (q_model Q) m evs) <= l).
    { rewrite <- (ln_exp l). destruct Hge as [Hlt|Heq]; [left; apply ln_increasing; [|exact Hlt]|rewrite Heq; right; reflexivity].
      apply Rmult_lt_0_compat; [apply Rinv_0_lt_compat, Hn|apply Hpos, Hm]. }
    rewrite ln_mult, ln_Rinv in Hln; [lra|exact Hn|apply Rinv_0_lt_compat, Hn|apply Hpos, Hm].
  Qed.

  Lemma averager_reached ms evs s0 s l : Forall Inv ms -> ms <> [] -> Forall ok evs ->
    qavg_init reset ms = Ok s0 -> run AM s0 evs = Ok (s, l) -> qavg_inv Q Inv s.
  Proof.
    intros HI Hne Hev E0 Er. destruct HR as [Hlaw Hz Hid Hu Hl].
    destruct (qavg_mixture0 Q reset Hlaw Hz A okw Inv HS Hri ms evs Hne HI Hev) as (s0' & s' & l' & E0' & Er' & Hi & _).
    congruence.
  Qed.

  Lemma averager_agrees ms evs e s0 s l : Forall Inv ms -> ms <> [] -> Forall ok evs -> ok e ->
    qavg_init reset ms = Ok s0 -> run AM s0 evs = Ok (s, l) ->
    exists s' l', m_update AM s (ev_sym e) (ev_hist e) (ev_wt e) = Ok (s', l') /\ m_logp AM s (ev_sym e) (ev_hist e) = Ok l'.
  Proof.
    intros HI Hne Hev (Ha & Hh & Hw) E0 Er. pose proof (averager_reached ms evs s0 s l HI Hne Hev E0 Er) as Hi.
    destruct (qavg_steps Q (rt_adds _ _ HR) A okw Inv HS bare s _ _ _ Hi Ha Hh Hw) as (s' & l' & H1 & H2 & _). eauto.
  Qed.

  Lemma averager_distribution ms evs s0 s l : lawful (q_model Q) A bare okw Inv -> (exists w, okw w) ->
    Forall Inv ms -> ms <> [] -> Forall ok evs ->
    qavg_init reset ms = Ok s0 -> run AM s0 evs = Ok (s, l) ->
    Rsum (map (fun a => pred_prob AM s a []) A) = 1.
  Proof.
    intros HL Hw HI Hne Hev E0 Er. pose proof (averager_reached ms evs s0 s l HI Hne Hev E0 Er) as Hi.
    exact (law_norm _ _ _ _ _ (qavg_lawful Q (rt_adds _ _ HR) A okw Inv HS bare HL Hw) s [] Hi eq_refl).
  Qed.

  (** map returns the member under which the events were most probable, the first if several. *)
  Lemma qmax_first l : forall b, exists l1 l2, b :: l = l1 ++ qmax_by Q b l :: l2 /\
    (forall m, In m l1 -> q_lp Q m < q_lp Q (qmax_by Q b l)) /\
    (forall m, In m l2 -> q_lp Q m <= q_lp Q (qmax_by Q b l)).
  Proof.
    induction l as [|x l IH]; intros b; cbn [qmax_by].
    - exists [], []. split; [reflexivity|]. split; intros m [].
    - destruct (Rlt_dec (q_lp Q b) (q_lp Q x)) as [Hlt|Hge].
      + destruct (IH x) as (l1 & l2 & E & H1 & H2). exists (b :: l1), l2. rewrite E. split; [reflexivity|]. split; [|exact H2].
        intros m [<-|Hm]; [|apply H1, Hm]. destruct (qmax_max Q l x x (or_introl eq_refl)); lra.
      + destruct (IH b) as (l1 & l2 & E & H1 & H2). set (mx := qmax_by Q b l) in *. clearbody mx. destruct l1 as [|y l1]; cbn [app] in E; injection E as E1 E2.
        * exists [], (x :: l2). cbn [app]. rewrite <- E1, E2. split; [reflexivity|]. split; [intros m []|].
          rewrite E1. intros m [<-|Hm]; [|apply H2, Hm]. rewrite <- E1. lra.
        * subst y. exists (b :: x :: l1), l2. cbn [app]. rewrite E2. split; [reflexivity|]. split; [|exact H2].
          intros m [<-|[<-|Hm]]; [apply H1; left; reflexivity| |apply H1; right; exact Hm].
          specialize (H1 b (or_introl eq_refl)). lra.
  Qed.

  Lemma averager_map ms evs s0 s l : Forall Inv ms -> ms <> [] -> Forall ok evs ->
    qavg_init reset ms = Ok s0 -> run AM s0 evs = Ok (s, l) ->
    exists ms1 m ms2 m', ms = ms1 ++ m :: ms2 /\ qavg_map Q s = Ok m' /\ fed Q reset evs m m' /\
      (forall x, In x ms1 -> seq_prob (q_model Q) x evs < seq_prob (q_model Q) m evs) /\
      (forall x, In x ms2 -> seq_prob (q_model Q) x evs <= seq_prob (q_model Q) m evs).
  Proof.
    intros HI Hne Hev E0 Er.
    destruct (averager_mixture ms evs Hne HI Hev) as (s0' & s' & l' & E0' & Er' & _ & HF & _).
    rewrite E0 in E0'. injection E0' as <-. rewrite Er in Er'. injection Er' as <- <-.
    unfold qavg_map. destruct (qa_models s) as [|b bs] eqn:Em; [inversion HF; subst; congruence|].
    destruct (qmax_first bs b) as (l1 & l2 & E & H1 & H2). set (mx := qmax_by Q b bs) in *. rewrite E in HF.
    apply Forall2_app_inv_r in HF as (ms1 & msr & HF1 & HF2 & Ems). inversion HF2 as [|m y ms2 l2' Hm HF3]; subst.
    assert (Hp : forall m m', fed Q reset evs m m' -> seq_prob (q_model Q) m evs = exp (q_lp Q m')).
    { intros x x' (lx & Hx & Hlx). rewrite <- (reset_seq_prob Q reset (rt_update _ _ HR) x evs (rt_idem _ _ HR x)).
      rewrite (seq_prob_run _ _ _ _ _ Hx), Hlx. reflexivity. }
    exists ms1, m, ms2, mx. split; [reflexivity|]. split; [reflexivity|]. split; [exact Hm|].
    rewrite (Hp _ _ Hm). split.
    - clear -HF1 H1 Hp. intros x Hx. revert H1. induction HF1 as [|y y' a a' Hy HF IH]; intros H1; [destruct Hx|].
      destruct Hx as [<-|Hx]; [rewrite (Hp _ _ Hy); apply exp_increasing, H1; left; reflexivity|].
      apply IH; [exact Hx|]. intros m Hm. apply H1. right. exact Hm.
    - clear -HF3 H2 Hp. intros x Hx. revert H2. induction HF3 as [|y y' a a' Hy HF IH]; intros H2; [destruct Hx|].
      destruct Hx as [<-|Hx].
      + rewrite (Hp _ _ Hy). destruct (H2 y' (or_introl eq_refl)) as [Hlt|Heq]; [left; apply exp_increasing, Hlt|rewrite Heq; right; reflexivity].
      + apply IH; [exact Hx|]. intros m Hm. apply H2. right. exact Hm.
  Qed.
End avg.

(** ** Members whose log_prob is computed anew *)
Section recomputed.
  Context {S : Type} (Q : probseq S) (reset : S -> S).
  Hypothesis HR : recomputed Q reset.
  Hypothesis Hlaw : forall s a h w s' l, m_update (q_model Q) s a h w = Ok (s', l) -> q_lp Q s' = q_lp Q s + l.

  Lemma recomputed_mass A w ms a0 : ms <> [] ->
    (forall m, In m ms -> Rsum (map (fun a => upd_prob (m_update (q_model Q)) m a [] w) A) = 1) ->
    (forall m a, In m ms -> In a A -> exists s' l, m_update (q_model Q) m a [] w = Ok (s', l)) ->
    qavg_init reset ms = Ok a0 ->
    Rsum (map (fun a => upd_prob (qavg_update Q) a0 a [] w) A) =
    / INR (length ms) * Rsum (map (fun m => exp (q_lp Q m)) ms).
  Proof.
    destruct HR as [Hz Hu]. intros Hne Hsum Hok E0.
    assert (Hn : 0 < INR (length ms)) by (apply lt_0_INR; destruct ms; [congruence|cbn; lia]).
    assert (Ea : a0 = QAVG (map reset ms) (ln (/ INR (length ms))) 0).
    { unfold qavg_init in E0. rewrite py_div_ok in E0 by lra. cbn [bind] in E0. unfold Rdiv in E0. rewrite Rmult_1_l in E0.
      rewrite py_log_ok in E0 by (apply Rinv_0_lt_compat, Hn). injection E0 as <-. reflexivity. }
    subst a0. clear E0.
    rewrite (Rsum_map_ext _ (fun a => / INR (length ms) * Rsum (map (fun m => exp (q_lp Q m) * upd_prob (m_update (q_model Q)) m a [] w) ms))).
    - rewrite Rsum_scal_l. f_equal. rewrite Rsum_swap. apply Rsum_map_ext. intros m Hm.
      rewrite Rsum_scal_l, (Hsum m Hm). lra.
    - intros a Ha. unfold upd_prob at 1. unfold qavg_update. cbn [qa_models qa_log_1_over_n qa_lp].
      assert (Hm : exists ms', mapM (fun m => do (m', _) <- m_update (q_model Q) m a [] w; Ok m') (map reset ms) = Ok ms' /\
        ms' <> [] /\
        map (fun m => exp (q_lp Q m)) ms' = map (fun m => exp (q_lp Q m) * upd_prob (m_update (q_model Q)) m a [] w) ms).
      { clear Hn Hsum. revert Hne. induction ms as [|m ms IH]; intros Hne; [congruence|]. cbn [map mapM].
        destruct (Hok m a (or_introl eq_refl) Ha) as (s' & l & E). rewrite Hu. unfold upd_prob at 1. rewrite E. cbn [bind].
        assert (G : exists ms', mapM (fun m => do (m', _) <- m_update (q_model Q) m a [] w; Ok m') (map reset ms) = Ok ms' /\
           map (fun m => exp (q_lp Q m)) ms' = map (fun m => exp (q_lp Q m) * upd_prob (m_update (q_model Q)) m a [] w) ms).
        { destruct ms as [|m2 ms2]; [exists []; split; reflexivity|].
          destruct IH as (ms' & E1 & _ & E2); [intros m0 a1 Hm0; apply Hok; right; exact Hm0|discriminate|]. eauto. }
        destruct G as (ms' & E1 & E2). rewrite E1. cbn [bind]. exists (s' :: ms'). split; [reflexivity|]. split; [discriminate|].
        cbn [map]. rewrite E2, (Hlaw _ _ _ _ _ _ E), exp_plus. reflexivity. }
      destruct Hm as (ms' & E1 & Hne' & E2). rewrite E1. cbn [bind].
      rewrite logsumexp_ok by (destruct ms'; [congruence|discriminate]). cbn [bind].
      rewrite Rminus_0_r, exp_plus, exp_ln by (apply Rinv_0_lt_compat, Hn). rewrite exp_ln.
      + rewrite map_map, E2. reflexivity.
      + apply exp_sum_pos. destruct ms'; [congruence|discriminate].
  Qed.
End recomputed.

Lemma qptw_adds {S} (Q : probseq S) fresh s a h w s' l :
  m_update (q_model (QPTW_class Q fresh)) s a h w = Ok (s', l) -> qp_lp s' = qp_lp s + l.
Proof.
  cbn [QPTW_class q_model QPTW_model m_update]. unfold qptw_update.
  destruct (qnode_update Q fresh (qp_tree s) a w) as [t|]; cbn [bind]; [|discriminate].
  destruct (_ <=? _)%nat; [|discriminate]. destruct (qlift _ _ _) as [x|]; cbn [bind]; [|discriminate].
  intros [= <- <-]. cbn [qp_lp]. lra.
Qed.

(** An Averager over one trained PTW. *)
Lemma averager_ptw_mass {S} (Q : probseq S) fresh A okw Inv H evs w :
  (forall s a h w s' l, m_update (q_model Q) s a h w = Ok (s', l) -> q_lp Q s' = q_lp Q s + l) ->
  q_lp Q fresh = 0 -> lawful (q_model Q) A bare okw Inv -> Inv fresh ->
  Forall (ok_event A bare okw) evs -> okw w -> (length evs < 2 ^ H)%nat ->
  exists s l a0, run (QPTW_model Q fresh) (qptw_init fresh H) evs = Ok (s, l) /\
    qavg_init qptw_reset [s] = Ok a0 /\
    Rsum (map (fun a => upd_prob (qavg_update (QPTW_class Q fresh)) a0 a [] w) A) = exp l.
Proof.
  intros Hlaw H0 HL Hi Hev Hw Hl. pose proof (law_step _ _ _ _ _ HL) as HS.
  destruct (qptw_run Q Hlaw fresh H0 A okw Inv HS Hi H evs Hev) as (s & Hr & Hrep & Hh); [lia|].
  assert (Hv : vrep Q (fun _ => fresh) s evs) by exact Hrep. rewrite <- Hh in Hl.
  assert (E : exists a0, qavg_init qptw_reset [s] = Ok a0).
  { unfold qavg_init. cbn [length INR]. rewrite py_div_ok by lra. cbn [bind]. rewrite py_log_ok by lra. cbn [bind]. eauto. }
  destruct E as (a0 & E). exists s, (qp_lp s), a0. split; [exact Hr|]. split; [exact E|].
  rewrite (recomputed_mass (QPTW_class Q fresh) qptw_reset (qptw_recomputed Q fresh) (qptw_adds Q fresh) A w [s] a0); [| | | |exact E].
  - cbn [length INR map QPTW_class q_lp]. rewrite Rsum_single. lra.
  - discriminate.
  - intros m [<-|[]]. apply (v_norm Q Hlaw (fun _ => fresh) (fun _ => H0) A okw Inv HS (fun _ => Hi) s evs w HL Hv Hev Hw Hl).
  - intros m a [<-|[]] Ha.
    destruct (v_step Q Hlaw (fun _ => fresh) (fun _ => H0) A okw Inv HS (fun _ => Hi) s evs (Event a [] w) Hv Hev) as (s' & Hu & _);
      [repeat split; assumption|exact Hl|]. eauto.
Qed.

Lemma qctw_adds {S} (Q : probseq S) fresh mkctx s a h w s' l :
  m_update (q_model (QCTW_class Q fresh mkctx)) s a h w = Ok (s', l) ->
  q_lp (QCTW_class Q fresh mkctx) s' = q_lp (QCTW_class Q fresh mkctx) s + l.
Proof.
  cbn [QCTW_class q_model m_update q_lp]. unfold qobj_update.
  destruct (qc_update Q fresh _ (qo_root s) a w) as [t|]; cbn [bind]; [|discriminate].
  intros [= <- <-]. cbn [qo_root]. lra.
Qed.

(** An Averager over one trained CTW. *)
Lemma averager_ctw_mass {S} (Q : probseq S) fresh A okw Inv K D sw w :
  (forall s a h w s' l, m_update (q_model Q) s a h w = Ok (s', l) -> q_lp Q s' = q_lp Q s + l) ->
  q_lp Q fresh = 0 -> lawful (q_model Q) A bare okw Inv -> Inv fresh -> NoDup K -> In 0%Z K -> incl A K -> okw 1 ->
  Forall (fun p => In (fst p) A /\ okw (snd p)) sw -> okw w ->
  let QC := QCTW_class Q fresh (mkcontext (Z.of_nat D)) in
  exists s rs a0, hexec (qobj_update Q fresh (mkcontext (Z.of_nat D))) (qobj_log_predict Q fresh (mkcontext (Z.of_nat D)))
      (qobj_init fresh (Z.of_nat D)) (updates sw) = Ok (s, rs) /\
    qavg_init qobj_reset [s] = Ok a0 /\
    Rsum (map (fun a => upd_prob (qavg_update QC) a0 a [] w) A) = exp (Rsum rs).
Proof.
  intros Hlaw H0 HL Hi HK HK0 HAK Hw1 Hsw Hw QC. pose proof (law_step _ _ _ _ _ HL) as HS.
  assert (Hops : Forall (ok_hop A okw) (updates sw)).
  { unfold updates. rewrite Forall_forall in *. intros o Ho. apply in_map_iff in Ho as (p & <- & Hp). exact (Hsw p Hp). }
  destruct (updates_total Q Hlaw fresh H0 D A okw Inv K HS Hi HK HK0 HAK sw _ _ _ (reached_init Q fresh H0 D A okw K) Hsw) as (s & rs & E & _ & Hrs).
  destruct (own_history_agrees Q Hlaw fresh H0 D A okw Inv K HS Hi HK HK0 HAK Hw1 (updates sw) Hops) as (s1 & rs1 & E1 & Hag).
  destruct (own_history_distribution Q Hlaw fresh H0 D A okw Inv K HS Hi HK HK0 HAK Hw1 (updates sw) HL Hops) as (s2 & rs2 & E2 & Hd).
  rewrite E in E1, E2. injection E1 as <- <-. injection E2 as <- <-.
  assert (Ea : exists a0, qavg_init qobj_reset [s] = Ok a0).
  { unfold qavg_init. cbn [length INR]. rewrite py_div_ok by lra. cbn [bind]. rewrite py_log_ok by lra. cbn [bind]. eauto. }
  destruct Ea as (a0 & Ea). exists s, rs, a0. split; [exact E|]. split; [exact Ea|].
  rewrite (recomputed_mass QC qobj_reset (qctw_recomputed Q fresh _) (qctw_adds Q fresh _) A w [s] a0); [| | | |exact Ea].
  - cbn [length INR map QC QCTW_class q_lp]. rewrite Rsum_single, Hrs. cbn [qobj_init qo_root new_qctw qc_lp]. rewrite Rminus_0_r. lra.
  - discriminate.
  - intros m [<-|[]]. rewrite <- Hd. apply Rsum_map_ext. intros a Ha. unfold upd_prob. cbn [QC QCTW_class q_model m_update].
    destruct (Hag a w Ha Hw) as (s' & s'' & l & U & P). rewrite U, P. reflexivity.
  - intros m a [<-|[]] Ha. destruct (Hag a w Ha Hw) as (s' & s'' & l & U & _). exists s', l. exact U.
Qed.

(** After a single symbol: half the mass. *)
Lemma averager_ptw_half : exists s l a0,
  run (QPTW_model QKT_class (qkt_init [0; 1]%Z)) (qptw_init (qkt_init [0; 1]%Z) 1) [Event 0 [] 1] = Ok (s, l) /\
  qavg_init qptw_reset [s] = Ok a0 /\
  Rsum (map (fun a => upd_prob (qavg_update (QPTW_class QKT_class (qkt_init [0; 1]%Z))) a0 a [] 1) [0; 1]%Z) = / 2.
Proof.
  assert (HN : NoDup [0; 1]%Z) by (repeat constructor; cbn; intuition discriminate).
  destruct (averager_ptw_mass QKT_class (qkt_init [0; 1]%Z) [0; 1]%Z nonneg (qkt_inv [0; 1]%Z) 1 [Event 0 [] 1] 1
    qkt_law eq_refl (qkt_lawful _ _)) as (s & l & a0 & H1 & H2 & H3).
  - apply qkt_inv_init; [exact HN|discriminate].
  - constructor; [|constructor]. split; [left; reflexivity|]. split; [reflexivity|]. cbn. unfold nonneg. lra.
  - unfold nonneg. lra.
  - cbn. lia.
  - exists s, l, a0. split; [exact H1|]. split; [exact H2|]. rewrite H3.
    destruct (qptw_recursion QKT_class qkt_law (qkt_init [0; 1]%Z) eq_refl [0; 1]%Z nonneg (qkt_inv [0; 1]%Z) (qkt_steps _ _)
      (qkt_inv_init _ HN ltac:(discriminate)) 1 [Event 0 [] 1]) as (s' & l' & H1' & Hl).
    + constructor; [|constructor]. split; [left; reflexivity|]. split; [reflexivity|]. cbn. unfold nonneg. lra.
    + cbn. lia.
    + rewrite H1 in H1'. injection H1' as <- <-. rewrite Hl. cbn [ptw_prob].
      set (e := Event 0 [] 1). 
      assert (Hp : seq_prob (q_model QKT_class) (qkt_init [0; 1]%Z) [e] = / 2).
      { cbn [seq_prob QKT_class q_model m_update]. unfold qkt_update, qkt_log_predict.
        cbn [e ev_sym ev_hist ev_wt qkt_init qk_counts fold_left length INR dict_set dict_lookup dict_get Z.eqb dict_values map snd].
        rewrite !Rsum_cons, Rsum_nil. rewrite !py_log_ok by lra. cbn [bind]. rewrite py_log_ok by lra. cbn [bind]. rewrite Rmult_1_r.
        unfold Rminus. rewrite exp_plus, exp_Ropp, !exp_ln by lra. lra. }
      cbn [Nat.add Nat.pow firstn skipn]. rewrite !Hp. cbn [seq_prob]. lra.
Qed.
