(** Statements about ctw.py's FMN in the form used by the property file. *)
From Coq Require Import Lra Lia Permutation.
From Verif Require Import Model.CtwFMN Spec.CtwFMNSpec Spec.PTWSpec Proofs.RealFacts Proofs.PyFacts Proofs.ProbFacts.
From Verif Require Import Proofs.AveragerFacts Proofs.PTWFacts Proofs.PTWTop Proofs.PTWMixture Proofs.PTWNorm Proofs.StoreFacts.
From Verif Require Import Proofs.FMNFacts Proofs.FMNProps Proofs.CtwPTWFacts Proofs.CtwPTWVar Proofs.CtwAveragerFacts Proofs.CtwAveragerTop Proofs.CtwFMNFacts.
Open Scope R_scope.

Section fmn.
  Context {S T : Type} (Q : probseq S) (reset : S -> S) (C : store_class (S := S) T) (TI : T -> Prop).
  Variable order : nat -> list S -> list S.
  Hypothesis Hord : forall t l, Permutation (order t l) l.
  Context (A : list Z) (okw : R -> Prop) (Inv : S -> Prop).
  Hypothesis HR : running_total Q reset.
  Hypothesis HS : steps (q_model Q) A bare okw Inv.
  Hypothesis Hri : forall s, Inv s -> Inv (reset s).
  Hypothesis HC : store_law C TI.
  Notation ok := (ok_event A bare okw).
  Notation QA := (QAVG_class Q).
  Notation AM := (q_model QA).
  Notation FM := (QFMN_model Q reset C order).
  Notation init := (qfmn_init reset C order).

  Lemma qfmn_total H fresh evs : Inv fresh -> Forall ok evs -> (length evs <= 2 ^ H)%nat ->
    exists s0 s l, init H fresh = Ok s0 /\ run FM s0 evs = Ok (s, l).
  Proof.
    intros Hf Hev Hl. destruct (qfmn_follows Q reset C TI order Hord A okw Inv HR HS Hri HC H fresh evs Hf Hev Hl) as (s0 & H0 & s & l & mk & xs & F).
    exists s0, s, l. split; [exact H0|apply F].
  Qed.

  (** The data of a run. *)
  Lemma qfmn_run H fresh evs s0 s l : Inv fresh -> Forall ok evs -> (length evs <= 2 ^ H)%nat ->
    init H fresh = Ok s0 -> run FM s0 evs = Ok (s, l) ->
    exists mk xs, qfollows Q reset C TI order Inv H s0 evs s l mk fresh xs /\
      vrep QA mk (qf_ptw s) evs /\ qp_height (qf_ptw s) = H /\ qp_lp (qf_ptw s) = l /\
      qfmn_base reset C order (qf_t s) (qf_models s) = Ok (mk (length evs)).
  Proof.
    intros Hf Hev Hl H0 Hr. destruct (qfmn_follows Q reset C TI order Hord A okw Inv HR HS Hri HC H fresh evs Hf Hev Hl) as (s0' & H0' & s' & l' & mk & xs & F).
    rewrite H0 in H0'. injection H0' as <-. pose proof (fq_run _ _ _ _ _ _ _ _ _ _ _ _ _ _ F) as Hr'.
    rewrite Hr in Hr'. injection Hr' as <- <-. exists mk, xs. split; [exact F|].
    pose proof (qavg_steps Q (rt_adds _ _ HR) A okw Inv HS bare) as HAS.
    destruct F as [Frun Fti Finv Fmki Fmk0 Fmk Ffeed Fadds Flen Ffirst Freu].
    destruct (v_feed QA (qavg_law Q) mk Fmk0 A okw _ HAS Fmki H evs Hev Hl) as (sp & Hfeed & Hrep & Hh).
    rewrite Ffeed in Hfeed. injection Hfeed as <- El. split; [exact Hrep|]. split; [exact Hh|]. split; [symmetry; exact El|].
    destruct (Fmk (length evs) (Nat.le_refl _)) as (st & lt & Hst & _ & _ & Hfac).
    rewrite firstn_all, Hr in Hst. injection Hst as <- <-.
    unfold qf_t. rewrite (vrep_t QA mk _ _ Hrep). exact Hfac.
  Qed.

  (** What update returns is what the PTW returns. *)
  Lemma qfmn_step H fresh evs s0 s l mk e : Inv fresh -> Forall ok evs -> ok e -> (length evs < 2 ^ H)%nat ->
    init H fresh = Ok s0 -> run FM s0 evs = Ok (s, l) -> qfmn_base reset C order (qf_t s) (qf_models s) = Ok (mk (length evs)) ->
    exists s' l', qfmn_update Q reset C order s (ev_sym e) (ev_hist e) (ev_wt e) = Ok (s', l') /\
      qptw_update QA (mk (length evs)) (qf_ptw s) (ev_sym e) [] (ev_wt e) = Ok (qf_ptw s', l').
  Proof.
    intros Hf Hev He Hl H0 Hr Hb.
    destruct (qfmn_total H fresh (evs ++ [e]) Hf) as (s0' & s2 & l2 & H0' & Hr2).
    { apply Forall_app. split; [exact Hev|constructor; [exact He|constructor]]. }
    { rewrite app_length. cbn [length]. lia. }
    rewrite H0 in H0'. injection H0' as <-. rewrite run_app, Hr in Hr2. cbn [bind run] in Hr2.
    change (m_update FM s) with (qfmn_update Q reset C order s) in Hr2.
    destruct (qfmn_update Q reset C order s (ev_sym e) (ev_hist e) (ev_wt e)) as [[s' l']|er] eqn:Eu; cbn [bind] in Hr2; [|discriminate].
    exists s', l'. split; [reflexivity|]. unfold qfmn_update in Eu. rewrite Hb in Eu. cbn [bind] in Eu.
    destruct (qptw_update QA (mk (length evs)) (qf_ptw s) (ev_sym e) [] (ev_wt e)) as [[p' rv]|]; cbn [bind] in Eu; [|discriminate].
    destruct (qptw_map QA p') as [b|]; cbn [bind] in Eu; [|discriminate].
    destruct (qavg_map Q b) as [x|]; cbn [bind] in Eu; [|discriminate].
    destruct (st_lazy_add C (qf_models s) x) as [m'|]; cbn [bind] in Eu; [|discriminate].
    injection Eu as <- <-. reflexivity.
  Qed.

  Lemma qfmn_full H fresh evs e s0 s l : Inv fresh -> Forall ok evs -> ok e -> length evs = (2 ^ H)%nat ->
    init H fresh = Ok s0 -> run FM s0 evs = Ok (s, l) ->
    qfmn_update Q reset C order s (ev_sym e) (ev_hist e) (ev_wt e) = Err AssertionError.
  Proof.
    intros Hf Hev He Hl H0 Hr. destruct (qfmn_run H fresh evs s0 s l Hf Hev ltac:(lia) H0 Hr) as (mk & xs & F & Hrep & Hh & _ & Hb).
    unfold qfmn_update. rewrite Hb. cbn [bind].
    pose proof (qavg_steps Q (rt_adds _ _ HR) A okw Inv HS bare) as HAS.
    pose proof (v_full QA (qavg_law Q) mk (fq_mk0 _ _ _ _ _ _ _ _ _ _ _ _ _ _ F) A okw _ HAS (fq_mk_inv _ _ _ _ _ _ _ _ _ _ _ _ _ _ F) (qf_ptw s) evs e Hrep Hev He) as G.
    rewrite Hh in G. specialize (G Hl). assert (Hh0 : ev_hist e = []) by apply He. rewrite Hh0 in G. rewrite G. reflexivity.
  Qed.

  Lemma qfmn_agrees H fresh evs e s0 s l : Inv fresh -> Forall ok evs -> ok e -> (length evs < 2 ^ H)%nat ->
    init H fresh = Ok s0 -> run FM s0 evs = Ok (s, l) ->
    exists s' l', qfmn_update Q reset C order s (ev_sym e) (ev_hist e) (ev_wt e) = Ok (s', l') /\
      qfmn_log_predict Q reset C order s (ev_sym e) (ev_hist e) = Ok l'.
  Proof.
    intros Hf Hev He Hl H0 Hr. destruct (qfmn_run H fresh evs s0 s l Hf Hev ltac:(lia) H0 Hr) as (mk & xs & F & Hrep & Hh & _ & Hb).
    destruct (qfmn_step H fresh evs s0 s l mk e Hf Hev He Hl H0 Hr Hb) as (s' & l' & Hu & Hp).
    exists s', l'. split; [exact Hu|]. unfold qfmn_log_predict. rewrite Hb. cbn [bind].
    pose proof (qavg_steps Q (rt_adds _ _ HR) A okw Inv HS bare) as HAS.
    assert (Hh0 : ev_hist e = []) by apply He.
    pose proof (v_agree QA (qavg_law Q) mk (fq_mk0 _ _ _ _ _ _ _ _ _ _ _ _ _ _ F) A okw _ HAS (fq_mk_inv _ _ _ _ _ _ _ _ _ _ _ _ _ _ F) (qf_ptw s) evs e (qf_ptw s') l' Hrep Hev He) as G.
    rewrite Hh0 in G. exact (G Hp).
  Qed.

  Lemma qfmn_norm H fresh evs w s0 s l : lawful (q_model Q) A bare okw Inv -> Inv fresh -> Forall ok evs -> okw w -> (length evs < 2 ^ H)%nat ->
    init H fresh = Ok s0 -> run FM s0 evs = Ok (s, l) ->
    Rsum (map (fun a => upd_prob (qfmn_update Q reset C order) s a [] w) A) = 1.
  Proof.
    intros HL Hf Hev Hw Hl H0 Hr. destruct (qfmn_run H fresh evs s0 s l Hf Hev ltac:(lia) H0 Hr) as (mk & xs & F & Hrep & Hh & _ & Hb).
    pose proof (qavg_steps Q (rt_adds _ _ HR) A okw Inv HS bare) as HAS.
    pose proof (qavg_lawful Q (rt_adds _ _ HR) A okw Inv HS bare HL (ex_intro (fun w => okw w) w Hw)) as HAL.
    rewrite <- (v_norm QA (qavg_law Q) mk (fq_mk0 _ _ _ _ _ _ _ _ _ _ _ _ _ _ F) A okw _ HAS (fq_mk_inv _ _ _ _ _ _ _ _ _ _ _ _ _ _ F) (qf_ptw s) evs w HAL Hrep Hev Hw) by (rewrite Hh; exact Hl).
    apply Rsum_map_ext. intros a Ha. unfold upd_prob.
    destruct (qfmn_step H fresh evs s0 s l mk (Event a [] w) Hf Hev) as (s' & l' & Hu & Hp); try assumption.
    { repeat split; assumption. }
    cbn [ev_sym ev_hist ev_wt] in Hu, Hp. rewrite Hu, Hp. reflexivity.
  Qed.

  Lemma qfmn_offered H fresh evs s0 s l : Inv fresh -> Forall ok evs -> (length evs <= 2 ^ H)%nat ->
    init H fresh = Ok s0 -> run FM s0 evs = Ok (s, l) ->
    exists xs, length xs = (1 + length evs)%nat /\ hd_error xs = Some fresh /\
      st_adds C (st_empty C) xs = Ok (qf_models s) /\
      forall i x, nth_error xs (Datatypes.S i) = Some x -> qreused Q reset C order s0 evs (Datatypes.S i) x.
  Proof.
    intros Hf Hev Hl H0 Hr. destruct (qfmn_run H fresh evs s0 s l Hf Hev Hl H0 Hr) as (mk & xs & F & _).
    exists xs. destruct F. auto.
  Qed.

  (** A segment: the Averager of the retained models against any one of them. *)
  Lemma qsegment_bound t models x seg a :
    TI models -> Forall Inv (st_iter C models) -> qfmn_base reset C order t models = Ok a -> In x (st_iter C models) ->
    Forall ok seg ->
    / INR (length (st_iter C models)) * seq_prob (q_model Q) x seg <= seq_prob AM a seg.
  Proof.
    intros HT HI Ha Hx Hseg. unfold qfmn_base in Ha. set (ms := order t (st_iter C models)) in *.
    assert (HP : Permutation ms (st_iter C models)) by apply Hord.
    assert (Hms : ms <> []) by (apply (order_ne order Hord), (sl_nonempty _ _ HC _ HT)).
    assert (HIms : Forall Inv ms) by (apply (order_inv order Hord), HI).
    destruct (averager_mixture Q reset A okw Inv HR HS Hri ms seg Hms HIms Hseg) as (a' & a1 & l & Ha' & Hr & Hexp & _).
    rewrite Ha in Ha'. injection Ha' as <-. rewrite (seq_prob_run _ _ _ _ _ Hr), Hexp.
    rewrite (Permutation_length HP).
    assert (Hn : 0 < INR (length (st_iter C models))).
    { apply lt_0_INR. pose proof (sl_nonempty _ _ HC _ HT). destruct (st_iter C models); [congruence|cbn; lia]. }
    apply Rmult_le_compat_l; [left; apply Rinv_0_lt_compat, Hn|].
    apply Rsum_ge_elem; [|apply (in_map (fun m => seq_prob (q_model Q) m seg)), (Permutation_in _ (Permutation_sym HP)), Hx].
    intros y Hy. apply in_map_iff in Hy as (y' & <- & Hy). left.
    rewrite Forall_forall in HIms. eapply steps_seq_prob_pos; eauto.
  Qed.

  Lemma qfmn_competes H fresh evs s0 s l p (choice : nat -> S) : Inv fresh -> Forall ok evs -> (length evs <= 2 ^ H)%nat ->
    init H fresh = Ok s0 -> run FM s0 evs = Ok (s, l) ->
    let sgs := filter (fun sg : nat * nat => (fst sg <? length evs)%nat) (segments 0 H 0 p) in
    is_part H p ->
    (forall sg, In sg sgs -> In (choice (fst sg)) (qretained Q reset C order s0 evs (fst sg))) ->
    - l <= Rsum (map (fun sg => - ln (seq_prob (q_model Q) (choice (fst sg)) (firstn (snd sg) (skipn (fst sg) evs)))
                                + ln (INR (length (qretained Q reset C order s0 evs (fst sg))))) sgs)
           + INR (pcost H p) * ln 2.
  Proof.
    intros Hf Hev Hl H0 Hr sgs Hp Hch.
    destruct (qfmn_run H fresh evs s0 s l Hf Hev Hl H0 Hr) as (mk & xs & F & Hrep & Hh & Hlp & _).
    destruct Hrep as (node & _ & _ & Hexp). rewrite Hlp, Hh in Hexp.
    destruct F as [Frun Fti Finv Fmki Fmk0 Fmk Ffeed Fadds Flen Ffirst Freu].
    pose proof (qavg_steps Q (rt_adds _ _ HR) A okw Inv HS bare) as HAS.
    pose proof (ptw_regret AM mk 0 A bare okw _ HAS Fmki H p 0 evs Hp Hev) as Hreg. rewrite <- Hexp, ln_exp in Hreg.
    assert (Hseg : forall b len, Forall ok (firstn len (skipn b evs))) by (intros; apply Forall_firstn, Forall_skipn, Hev).
    rewrite (part_prob_segments AM mk 0 p H 0%nat evs Hp Hl) in Hreg.
    rewrite (Rprod_map_ext _ (fun sg => seq_prob AM (mk (fst sg)) (firstn (snd sg) (skipn (fst sg) evs)))) in Hreg.
    2:{ intros sg _. rewrite Nat.sub_0_r. reflexivity. }
    set (f := fun sg : nat * nat => seq_prob AM (mk (fst sg)) (firstn (snd sg) (skipn (fst sg) evs))) in *.
    assert (Hfpos : forall sg, 0 < f sg).
    { intros sg. unfold f. eapply steps_seq_prob_pos; [exact HAS|apply Fmki|apply Hseg]. }
    destruct (ln_Rprod f (segments 0 H 0 p) (fun sg _ => Hfpos sg)) as (_ & HlnP).
    rewrite HlnP in Hreg. clear HlnP.
    assert (Hbound : - Rsum (map (fun sg => ln (f sg)) (segments 0 H 0 p)) <=
       Rsum (map (fun sg => - ln (seq_prob (q_model Q) (choice (fst sg)) (firstn (snd sg) (skipn (fst sg) evs)))
                            + ln (INR (length (qretained Q reset C order s0 evs (fst sg))))) sgs)); [|lra].
    unfold sgs in *. clear Hreg. induction (segments 0 H 0 p) as [|sg L IH]; [cbn [map filter]; rewrite Rsum_nil; lra|].
    cbn [map filter] in *. rewrite Rsum_cons.
    destruct (Nat.ltb_spec (fst sg) (length evs)) as [Hlt|Hge].
    - specialize (IH (fun x Hx => Hch x (or_intror Hx))). cbn [map]. rewrite Rsum_cons.
      destruct (Fmk (fst sg)) as (st & lt & Hst & HT & HI & Hfac); [lia|].
      pose proof (Hch sg (or_introl eq_refl)) as Hc. unfold qretained in *. rewrite Hst in *.
      pose proof (qsegment_bound (fst sg) (qf_models st) (choice (fst sg)) (firstn (snd sg) (skipn (fst sg) evs)) (mk (fst sg)) HT HI Hfac Hc (Hseg _ _)) as Hb.
      fold (f sg) in Hb.
      assert (Hn : 0 < INR (length (st_iter C (qf_models st)))).
      { apply lt_0_INR. destruct (st_iter C (qf_models st)); [destruct Hc|cbn; lia]. }
      assert (Hq : 0 < seq_prob (q_model Q) (choice (fst sg)) (firstn (snd sg) (skipn (fst sg) evs))).
      { rewrite Forall_forall in HI. eapply steps_seq_prob_pos; eauto. }
      assert (Hi : 0 < / INR (length (st_iter C (qf_models st)))) by (apply Rinv_0_lt_compat, Hn).
      assert (Hln : ln (/ INR (length (st_iter C (qf_models st))) * seq_prob (q_model Q) (choice (fst sg)) (firstn (snd sg) (skipn (fst sg) evs))) <= ln (f sg)).
      { destruct Hb as [Hb|Hb]; [left; apply ln_increasing; [apply Rmult_lt_0_compat; assumption|exact Hb]|rewrite Hb; right; reflexivity]. }
      rewrite ln_mult, ln_Rinv in Hln by assumption. lra.
    - specialize (IH Hch). assert (E : ln (f sg) = 0).
      { unfold f. rewrite skipn_all2 by exact Hge. rewrite firstn_nil. cbn [seq_prob]. apply ln_1. }
      rewrite E. lra.
  Qed.
End fmn.

Lemma qfmn_logstore_retains {S} (Q : probseq S) reset order A okw Inv H fresh evs s0 s l :
  (forall t l, Permutation (order t l) l) -> running_total Q reset -> steps (q_model Q) A bare okw Inv ->
  (forall s, Inv s -> Inv (reset s)) -> Inv fresh -> Forall (ok_event A bare okw) evs -> (length evs <= 2 ^ H)%nat ->
  qfmn_init reset (LogStore_class S) order H fresh = Ok s0 ->
  run (QFMN_model Q reset (LogStore_class S) order) s0 evs = Ok (s, l) ->
  length (ls_iter (qf_models s)) = (Nat.log2 (1 + length evs) + 1)%nat /\
  nth_error (ls_iter (qf_models s)) (Nat.log2 (1 + length evs)) = Some fresh.
Proof.
  intros Hord HR HS Hri Hf Hev Hl H0 Hr.
  destruct (qfmn_offered Q reset (LogStore_class S) _ order Hord A okw Inv HR HS Hri (logstore_law S) H fresh evs s0 s l Hf Hev Hl H0 Hr) as (xs & Hlen & Hhd & Hadds & _).
  rewrite ls_adds in Hadds. injection Hadds as Hadds. rewrite <- Hadds.
  assert (Hne : xs <> []) by (destruct xs; discriminate).
  pose proof (logstore_items xs Hne) as Hit. change (st_empty (LogStore_class S)) with (@ls_init S).
  rewrite <- Hlen. split.
  - unfold ls_iter. rewrite map_length. apply logstore_length, Hne.
  - apply (f_equal (fun l => nth_error l (Nat.log2 (length xs)))) in Hit. rewrite nth_error_map_Some in Hit.
    rewrite nth_error_map, (nth_error_nth' _ 0%nat) in Hit by (rewrite seq_length; lia).
    rewrite seq_nth in Hit by lia. cbn [option_map] in Hit. rewrite Nat.add_0_l, kept_oldest in Hit by (destruct xs; [congruence|cbn [length]; apply Nat.lt_0_succ]).
    destruct xs as [|x xs]; [congruence|]. cbn in Hhd. injection Hhd as ->. cbn [nth_error] in Hit.
    destruct (nth_error (ls_iter _) _) as [y|]; cbn in Hit; congruence.
Qed.
