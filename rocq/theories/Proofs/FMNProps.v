(** Statements about FMN in the form used by the property files. *)
From Coq Require Import Lra Lia.
From Verif Require Import Model.FMN Spec.FMNSpec Proofs.RealFacts Proofs.PyFacts Proofs.ProbFacts.
From Verif Require Import Proofs.AveragerFacts Proofs.PTWFacts Proofs.PTWTop Proofs.PTWMixture Proofs.PTWNorm Proofs.PTWPredict Proofs.PTWProps.
From Verif Require Import Proofs.StoreFacts Proofs.UniformFacts Proofs.FMNFacts.
Open Scope R_scope.

Section fmn.
  Context {S T : Type} (M : model S) (C : store_class (S := S) T) (TI : T -> Prop).
  Context (A : list Z) (okh : list Z -> Prop) (okw : R -> Prop) (Inv : S -> Prop).
  Hypothesis HC : store_law C TI.
  Variable m : nat.
  Notation ok := (ok_event A okh okw).
  Notation AM := (AVG_model M).
  Notation FM := (FMN_model M C m).

  (** FMN never raises. *)
  Lemma fmn_total (HS : steps M A okh okw Inv) fresh evs : Inv fresh -> Forall ok evs ->
    exists s0 s l, fmn_init C m fresh = Ok s0 /\ run FM s0 evs = Ok (s, l).
  Proof.
    intros Hf Hev. destruct (fmn_follows M C TI A okh okw Inv HS HC m fresh evs Hf Hev) as (s0 & H0 & s & l & mk & xs & F).
    exists s0, s, l. split; [exact H0|apply (fo_run _ _ _ _ _ _ _ _ _ _ _ _ F)].
  Qed.

  Lemma fmn_update_norm (HL : lawful M A okh okw Inv) fresh evs s0 s l h w :
    Inv fresh -> Forall ok evs -> okh h -> okw w ->
    fmn_init C m fresh = Ok s0 -> run FM s0 evs = Ok (s, l) ->
    Rsum (map (fun a => upd_prob (fmn_update M C m) s a h w) A) = 1.
  Proof.
    intros Hf Hev Hh Hw H0 Hr. pose proof (law_step _ _ _ _ _ HL) as HS.
    destruct (fmn_follows M C TI A okh okw Inv HS HC m fresh evs Hf Hev) as (s0' & H0' & s' & l' & mk & xs & F).
    rewrite H0 in H0'. injection H0' as <-. pose proof (fo_run _ _ _ _ _ _ _ _ _ _ _ _ F) as Hr'.
    rewrite Hr in Hr'. injection Hr' as <- <-.
    pose proof (avg_lawful M A okh okw Inv HS HL (ex_intro _ w Hw)) as HAL.
    rewrite <- (ptw_update_norm AM A okh okw (avg_inv Inv) HAL mk (fo_mk_inv _ _ _ _ _ _ _ _ _ _ _ _ F) m evs _ _ h w Hev Hh Hw (fo_feed _ _ _ _ _ _ _ _ _ _ _ _ F)).
    f_equal. apply map_ext_in. intros a Ha. unfold upd_prob.
    assert (He : ok (Event a h w)) by (repeat split; assumption).
    destruct (fmn_follows M C TI A okh okw Inv HS HC m fresh (evs ++ [Event a h w]) Hf) as (s0' & H0' & s2 & l2 & mk2 & xs2 & F2).
    { apply Forall_app. split; [exact Hev|constructor; [exact He|constructor]]. }
    rewrite H0 in H0'. injection H0' as <-. pose proof (fo_run _ _ _ _ _ _ _ _ _ _ _ _ F2) as Hr2.
    rewrite run_app, Hr in Hr2. cbn [bind run ev_sym ev_hist ev_wt] in Hr2.
    change (m_update FM s a h w) with (fmn_update M C m s a h w) in Hr2.
    destruct (fo_mk _ _ _ _ _ _ _ _ _ _ _ _ F (length evs) (Nat.le_refl _)) as (st & lt & Hst & _ & _ & Hfac).
    rewrite firstn_all, Hr in Hst. injection Hst as <- <-.
    unfold fmn_update in *. rewrite Hfac in *. cbn [bind] in *.
    destruct (ptw_update AM m (mk (length evs)) (fm_ptw s) a h w) as [[p' rv]|er]; cbn [bind] in *; [|discriminate].
    destruct (Nat.eqb _ 0); [|reflexivity]. destruct (avg_map (ptw_map p')) as [[k x]|er]; cbn [bind] in *; [|discriminate].
    destruct (st_lazy_add C (fm_models s) x) as [models'|er]; cbn [bind] in *; [reflexivity|discriminate].
  Qed.

  (** The store has been offered the initial model and one more per period. *)
  Lemma fmn_offered (HS : steps M A okh okw Inv) fresh evs s0 s l : Inv fresh -> Forall ok evs ->
    fmn_init C m fresh = Ok s0 -> run FM s0 evs = Ok (s, l) ->
    exists xs, length xs = (1 + length evs / 2 ^ m)%nat /\ hd_error xs = Some fresh /\
      st_adds C (st_empty C) xs = Ok (fm_models s) /\
      forall i x, nth_error xs (Datatypes.S i) = Some x -> reused M C m s0 evs (Datatypes.S i * 2 ^ m) x.
  Proof.
    intros Hf Hev H0 Hr. destruct (fmn_follows M C TI A okh okw Inv HS HC m fresh evs Hf Hev) as (s0' & H0' & s' & l' & mk & xs & F).
    rewrite H0 in H0'. injection H0' as <-. pose proof (fo_run _ _ _ _ _ _ _ _ _ _ _ _ F) as Hr'.
    rewrite Hr in Hr'. injection Hr' as <- <-. exists xs.
    split; [apply (fo_len _ _ _ _ _ _ _ _ _ _ _ _ F)|]. split; [apply (fo_first _ _ _ _ _ _ _ _ _ _ _ _ F)|].
    split; [apply (fo_adds _ _ _ _ _ _ _ _ _ _ _ _ F)|]. apply (fo_reused _ _ _ _ _ _ _ _ _ _ _ _ F).
  Qed.

  (** A segment: the Averager of the retained models against any one of them. *)
  Lemma segment_bound (HS : steps M A okh okw Inv) models x seg a :
    TI models -> Forall Inv (st_iter C models) -> fmn_factory C models = Ok a -> In x (st_iter C models) ->
    Forall ok seg ->
    / INR (length (st_iter C models)) * seq_prob M x seg <= seq_prob AM a seg.
  Proof.
    intros HT HI Ha Hx Hseg. unfold fmn_factory in Ha. set (ms := number_from 0 (st_iter C models)) in *.
    assert (Hms : ms <> []).
    { pose proof (sl_nonempty _ _ HC _ HT) as Hne. unfold ms. destruct (st_iter C models); [congruence|discriminate]. }
    assert (HIms : forall i y, In (i, y) ms -> Inv y).
    { intros i y Hy. apply number_from_keys in Hy as (_ & Hy). rewrite Forall_forall in HI. apply HI, Hy. }
    destruct (avg_mixture M A okh okw Inv HS ms seg Hms (number_from_nodup _ _) HIms Hseg)
      as (a' & a1 & l & Ha' & Hr & _ & _ & _ & Hexp).
    rewrite Ha in Ha'. injection Ha' as <-. rewrite (seq_prob_run _ _ _ _ _ Hr), Hexp.
    replace (length ms) with (length (st_iter C models)) by (unfold ms; rewrite number_from_length; reflexivity).
    assert (Hn : 0 < INR (length (st_iter C models))).
    { apply lt_0_INR. pose proof (sl_nonempty _ _ HC _ HT). destruct (st_iter C models); [congruence|cbn; lia]. }
    apply Rmult_le_compat_l; [left; apply Rinv_0_lt_compat, Hn|].
    destruct (number_from_in _ 0%Z x Hx) as (k & Hk).
    apply Rsum_ge_elem; [|apply (in_map (fun km : Z * S => seq_prob M (snd km) seg) ms (k, x) Hk)].
    intros y Hy. apply in_map_iff in Hy as ((k' & y') & <- & Hy). left.
    eapply steps_seq_prob_pos; eauto.
  Qed.

  Lemma ln_Rprod (f : nat * nat -> R) sgs : (forall sg, In sg sgs -> 0 < f sg) ->
    0 < Rprod (map f sgs) /\ ln (Rprod (map f sgs)) = Rsum (map (fun sg => ln (f sg)) sgs).
  Proof.
    intros H. induction sgs as [|sg sgs IH]; cbn [map].
    - unfold Rprod. cbn [fold_right]. rewrite ln_1, Rsum_nil. split; lra.
    - destruct IH as (Hp & IH); [intros y Hy; apply H; right; exact Hy|].
      assert (0 < f sg) by (apply H; left; reflexivity).
      change (Rprod (f sg :: map f sgs)) with (f sg * Rprod (map f sgs)).
      split; [apply Rmult_lt_0_compat; assumption|]. rewrite ln_mult by assumption. rewrite IH, Rsum_cons. reflexivity.
  Qed.

  Lemma fmn_competes (HS : steps M A okh okw Inv) fresh evs s0 s l p (choice : nat -> S) : Inv fresh -> Forall ok evs ->
    fmn_init C m fresh = Ok s0 -> run FM s0 evs = Ok (s, l) ->
    let d := levels m (length evs) in
    let sgs := filter (fun sg : nat * nat => (fst sg <? length evs)%nat) (segments m d 0 p) in
    is_part d p ->
    (forall sg, In sg sgs -> In (choice (fst sg)) (retained M C m s0 evs (fst sg))) ->
    - l <= Rsum (map (fun sg => - ln (seq_prob M (choice (fst sg)) (firstn (snd sg) (skipn (fst sg) evs)))
                                + ln (INR (length (retained M C m s0 evs (fst sg))))) sgs)
           + INR (pcost d p) * ln 2 + INR (pred d) * ln (3 / 2).
  Proof.
    intros Hf Hev H0 Hr d sgs Hp Hch.
    destruct (fmn_follows M C TI A okh okw Inv HS HC m fresh evs Hf Hev) as (s0' & H0' & s' & l' & mk & xs & F).
    rewrite H0 in H0'. injection H0' as <-. pose proof (fo_run _ _ _ _ _ _ _ _ _ _ _ _ F) as Hr'.
    rewrite Hr in Hr'. injection Hr' as <- <-.
    pose proof (avg_steps M A okh okw Inv HS) as HAS.
    destruct (ptw_unknown_regret AM A okh okw (avg_inv Inv) HAS mk (fo_mk_inv _ _ _ _ _ _ _ _ _ _ _ _ F) m evs p Hev Hp) as (sp & lp & Hfeed & Hreg).
    rewrite (fo_feed _ _ _ _ _ _ _ _ _ _ _ _ F) in Hfeed. injection Hfeed as <- <-. fold d in Hreg.
    assert (Hseg : forall b len, Forall ok (firstn len (skipn b evs))) by (intros; apply Forall_firstn, Forall_skipn, Hev).
    rewrite (part_prob_segments AM mk m p d 0%nat evs Hp (levels_fit m (length evs))) in Hreg.
    rewrite (Rprod_map_ext _ (fun sg => seq_prob AM (mk (fst sg)) (firstn (snd sg) (skipn (fst sg) evs)))) in Hreg.
    2:{ intros sg _. rewrite Nat.sub_0_r. reflexivity. }
    set (f := fun sg : nat * nat => seq_prob AM (mk (fst sg)) (firstn (snd sg) (skipn (fst sg) evs))) in *.
    assert (Hfpos : forall sg, 0 < f sg).
    { intros sg. unfold f. eapply steps_seq_prob_pos; [exact HAS|apply (fo_mk_inv _ _ _ _ _ _ _ _ _ _ _ _ F)|apply Hseg]. }
    destruct (ln_Rprod f (segments m d 0 p) (fun sg _ => Hfpos sg)) as (_ & Hln). rewrite Hln in Hreg. clear Hln.
    assert (Hbound : - Rsum (map (fun sg => ln (f sg)) (segments m d 0 p)) <=
       Rsum (map (fun sg => - ln (seq_prob M (choice (fst sg)) (firstn (snd sg) (skipn (fst sg) evs)))
                            + ln (INR (length (retained M C m s0 evs (fst sg))))) sgs)); [|lra].
    unfold sgs in *. clear Hreg. induction (segments m d 0 p) as [|sg L IH]; [cbn [map filter]; rewrite Rsum_nil; lra|].
    cbn [map filter] in *. rewrite Rsum_cons.
    destruct (Nat.ltb_spec (fst sg) (length evs)) as [Hlt|Hge].
    - specialize (IH (fun x Hx => Hch x (or_intror Hx))). cbn [map]. rewrite Rsum_cons.
      destruct (fo_mk _ _ _ _ _ _ _ _ _ _ _ _ F (fst sg)) as (st & lt & Hst & HT & HI & Hfac); [lia|].
      pose proof (Hch sg (or_introl eq_refl)) as Hc. unfold retained in *. rewrite Hst in *.
      pose proof (segment_bound HS (fm_models st) (choice (fst sg)) (firstn (snd sg) (skipn (fst sg) evs)) (mk (fst sg)) HT HI Hfac Hc (Hseg _ _)) as Hb.
      fold (f sg) in Hb.
      assert (Hn : 0 < INR (length (st_iter C (fm_models st)))).
      { apply lt_0_INR. destruct (st_iter C (fm_models st)); [destruct Hc|cbn; lia]. }
      assert (Hq : 0 < seq_prob M (choice (fst sg)) (firstn (snd sg) (skipn (fst sg) evs))).
      { rewrite Forall_forall in HI. eapply steps_seq_prob_pos; eauto. }
      assert (Hi : 0 < / INR (length (st_iter C (fm_models st)))) by (apply Rinv_0_lt_compat, Hn).
      assert (Hln : ln (/ INR (length (st_iter C (fm_models st))) * seq_prob M (choice (fst sg)) (firstn (snd sg) (skipn (fst sg) evs))) <= ln (f sg)).
      { destruct Hb as [Hb|Hb]; [left; apply ln_increasing; [apply Rmult_lt_0_compat; assumption|exact Hb]|rewrite Hb; right; reflexivity]. }
      rewrite ln_mult, ln_Rinv in Hln by assumption. lra.
    - specialize (IH Hch). assert (E : ln (f sg) = 0).
      { unfold f. rewrite skipn_all2 by exact Hge. rewrite firstn_nil. cbn [seq_prob]. apply ln_1. }
      rewrite E. lra.
  Qed.

  (** log_predict: as for PTW, right only between the period boundaries. *)
  Lemma fmn_log_predict_between (HS : steps M A okh okw Inv) fresh evs e s0 s l : Inv fresh -> Forall ok evs -> ok e ->
    (evs = [] \/ length evs mod 2 ^ m <> 0)%nat ->
    fmn_init C m fresh = Ok s0 -> run FM s0 evs = Ok (s, l) ->
    exists s' l', fmn_update M C m s (ev_sym e) (ev_hist e) (ev_wt e) = Ok (s', l') /\
      fmn_log_predict M s (ev_sym e) (ev_hist e) = Ok l'.
  Proof.
    intros Hf Hev He Hb H0 Hr.
    destruct (fmn_follows M C TI A okh okw Inv HS HC m fresh (evs ++ [e]) Hf) as (s0' & H0' & s2 & l2 & mk & xs & F).
    { apply Forall_app. split; [exact Hev|constructor; [exact He|constructor]]. }
    rewrite H0 in H0'. injection H0' as <-. pose proof (fo_run _ _ _ _ _ _ _ _ _ _ _ _ F) as Hr2.
    rewrite run_app, Hr in Hr2. cbn [bind run] in Hr2.
    change (m_update FM s) with (fmn_update M C m s) in Hr2.
    destruct (fmn_update M C m s (ev_sym e) (ev_hist e) (ev_wt e)) as [[s3 l3]|er] eqn:E; cbn [bind] in Hr2; [|discriminate].
    exists s3, l3. split; [reflexivity|]. clear Hr2 F mk xs.
    destruct (fmn_follows M C TI A okh okw Inv HS HC m fresh evs Hf Hev) as (s0' & H0' & s' & l' & mk & xs & F).
    rewrite H0 in H0'. injection H0' as <-. pose proof (fo_run _ _ _ _ _ _ _ _ _ _ _ _ F) as Hr'.
    rewrite Hr in Hr'. injection Hr' as <- <-.
    destruct (ptw_predict_between AM A okh okw (avg_inv Inv) (avg_steps M A okh okw Inv HS) mk (fo_mk_inv _ _ _ _ _ _ _ _ _ _ _ _ F) m evs e _ _ Hev He Hb
       (fo_feed _ _ _ _ _ _ _ _ _ _ _ _ F)) as (p' & l'' & Hu & Hp).
    unfold fmn_log_predict. rewrite Hp. f_equal.
    destruct (fo_mk _ _ _ _ _ _ _ _ _ _ _ _ F (length evs) (Nat.le_refl _)) as (st & lt & Hst & _ & _ & Hfac).
    rewrite firstn_all, Hr in Hst. injection Hst as <- <-.
    unfold fmn_update in E. rewrite Hfac in E. cbn [bind] in E. rewrite Hu in E. cbn [bind] in E.
    destruct (Nat.eqb _ 0); [|injection E as _ <-; reflexivity].
    destruct (avg_map (ptw_map p')) as [[k x]|er]; cbn [bind] in *; [|discriminate].
    destruct (st_lazy_add C (fm_models s) x) as [models'|er]; cbn [bind] in *; [injection E as _ <-; reflexivity|discriminate].
  Qed.

  Lemma fmn_log_predict_boundary (HL : lawful M A okh okw Inv) fresh evs s0 s l h w : (2 <= length A)%nat ->
    Inv fresh -> Forall ok evs -> okh h -> okw w -> length evs <> 0%nat -> (length evs mod 2 ^ m = 0)%nat ->
    fmn_init C m fresh = Ok s0 -> run FM s0 evs = Ok (s, l) ->
    1 < Rsum (map (fun a => match fmn_log_predict M s a h with Ok l => exp l | Err _ => 0 end) A).
  Proof.
    intros HA Hf Hev Hh Hw Hne Hmod H0 Hr. pose proof (law_step _ _ _ _ _ HL) as HS.
    destruct (fmn_follows M C TI A okh okw Inv HS HC m fresh evs Hf Hev) as (s0' & H0' & s' & l' & mk & xs & F).
    rewrite H0 in H0'. injection H0' as <-. pose proof (fo_run _ _ _ _ _ _ _ _ _ _ _ _ F) as Hr'.
    rewrite Hr in Hr'. injection Hr' as <- <-.
    pose proof (avg_lawful M A okh okw Inv HS HL (ex_intro _ w Hw)) as HAL.
    exact (ptw_predict_boundary AM A okh okw (avg_inv Inv) HAL mk (fo_mk_inv _ _ _ _ _ _ _ _ _ _ _ _ F) m HA evs _ _ h w Hev Hh Hw Hne Hmod (fo_feed _ _ _ _ _ _ _ _ _ _ _ _ F)).
  Qed.
End fmn.

(** With a LogStore: how many models are retained, and that the initial one is among them. *)
Lemma fmn_logstore_retains {S} (M : model S) A okh okw Inv m fresh evs s0 s l : steps M A okh okw Inv ->
  Inv fresh -> Forall (ok_event A okh okw) evs ->
  fmn_init (LogStore_class S) m fresh = Ok s0 -> run (FMN_model M (LogStore_class S) m) s0 evs = Ok (s, l) ->
  length (ls_iter (fm_models s)) = (Nat.log2 (1 + length evs / 2 ^ m) + 1)%nat /\
  nth_error (ls_iter (fm_models s)) (Nat.log2 (1 + length evs / 2 ^ m)) = Some fresh.
Proof.
  intros HS Hf Hev H0 Hr.
  destruct (fmn_offered M (LogStore_class S) _ A okh okw Inv (logstore_law S) m HS fresh evs s0 s l Hf Hev H0 Hr) as (xs & Hlen & Hhd & Hadds & _).
  rewrite ls_adds in Hadds. injection Hadds as Hadds. rewrite <- Hadds.
  assert (Hne : xs <> []) by (destruct xs; discriminate).
  pose proof (logstore_items xs Hne) as Hit. change (st_empty (LogStore_class S)) with (@ls_init S).
  rewrite <- Hlen. split.
  - unfold ls_iter. rewrite map_length. apply logstore_length, Hne.
  - apply (f_equal (fun l => nth_error l (Nat.log2 (length xs)))) in Hit. rewrite nth_error_map_Some in Hit.
    rewrite nth_error_map, (nth_error_nth' _ 0%nat) in Hit by (rewrite seq_length; lia).
    rewrite seq_nth in Hit by lia. cbn [option_map] in Hit. rewrite Nat.add_0_l, kept_oldest in Hit by (destruct xs; [congruence|cbn [length]; apply Nat.lt_0_succ]).
    destruct xs as [|x xs]; [congruence|]. cbn in Hhd. injection Hhd as ->. cbn [nth_error] in Hit.
    destruct (nth_error (ls_iter _) _) as [y|]; cbn in Hit; congruence.
Qed.

Lemma fmn_uniform_retains {S} (M : model S) A okh okw Inv m fresh evs s0 s l : steps M A okh okw Inv ->
  Inv fresh -> Forall (ok_event A okh okw) evs ->
  fmn_init (LogStoreUniform_class S) m fresh = Ok s0 -> run (FMN_model M (LogStoreUniform_class S) m) s0 evs = Ok (s, l) ->
  (length (us_iter (fm_models s)) <= Nat.log2 (1 + length evs / 2 ^ m) + 2)%nat /\
  hd_error (us_items (fm_models s)) = Some fresh.
Proof.
  intros HS Hf Hev H0 Hr.
  destruct (fmn_offered M (LogStoreUniform_class S) _ A okh okw Inv (uniform_law S) m HS fresh evs s0 s l Hf Hev H0 Hr) as (xs & Hlen & Hhd & Hadds & _).
  rewrite us_adds_eq in Hadds. assert (Hne : xs <> []) by (destruct xs; discriminate).
  destruct (uniform_items xs Hne) as (s' & idx & j & nw & Hs' & Hit & _ & Hi0 & _ & _ & _ & Hl & _).
  change (st_empty (LogStoreUniform_class S)) with (@us_init S) in Hadds. rewrite Hadds in Hs'. injection Hs' as <-.
  rewrite <- Hlen. split.
  - unfold us_iter. rewrite rev_length. apply (f_equal (@length _)) in Hit. rewrite !map_length in Hit. lia.
  - destruct idx as [|i idx]; [discriminate|]. injection Hi0 as ->. destruct (us_items (fm_models s)) as [|y ys]; [discriminate|].
    cbn in Hit. destruct xs as [|x xs]; [congruence|]. cbn in *. congruence.
Qed.
