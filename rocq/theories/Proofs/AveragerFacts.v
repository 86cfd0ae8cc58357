From Coq Require Import Lra.
From Verif Require Import Model.Averager Spec.Prob.
From Verif Require Import Proofs.RealFacts Proofs.PyFacts Proofs.ProbFacts Proofs.LnBounds.
Open Scope R_scope.

Section averager.
  Context {S : Type} (M : model S).
  Context (A : list Z) (okh : list Z -> Prop) (okw : R -> Prop) (Inv : S -> Prop).
  Hypothesis HS : steps M A okh okw Inv.

  Definition avg_inv (s : avg S) : Prop :=
    av_models s <> [] /\ (forall k m lp, In (k, (m, lp)) (av_models s) -> Inv m) /\
    av_lp s = ln (Rsum (map exp (avg_weights (av_models s)))).

  (** results of the member calls *)
  Definition upd_of (symbol : Z) (history : list Z) (w : R) (m : S) : S * R :=
    match m_update M m symbol history w with Ok x => x | Err _ => (m, 0) end.

  Lemma upd_of_ok m a h w : Inv m -> In a A -> okh h -> okw w ->
    m_update M m a h w = Ok (upd_of a h w m) /\ m_logp M m a h = Ok (snd (upd_of a h w m)) /\
    Inv (fst (upd_of a h w m)).
  Proof.
    intros Hm Ha Hh Hw. destruct (HS m a h w Hm Ha Hh Hw) as (s' & l & Hu & Hp & HI).
    unfold upd_of. rewrite Hu. cbn [fst snd]. auto.
  Qed.

  Definition upd_entry (a : Z) (h : list Z) (w : R) (kv : Z * (S * R)) : Z * (S * R) :=
    let '(k, (m, lp)) := kv in (k, (fst (upd_of a h w m), lp + snd (upd_of a h w m))).

  Lemma avg_weights_ne (d : dict (S * R)) : d <> [] -> avg_weights d <> [].
  Proof. destruct d; [congruence|discriminate]. Qed.

  Lemma avg_update_ok s a h w : avg_inv s -> In a A -> okh h -> okw w ->
    let ms := map (upd_entry a h w) (av_models s) in
    let lp := ln (Rsum (map exp (avg_weights ms))) in
    avg_update M s a h w = Ok (AVG ms lp, lp - av_lp s) /\
    avg_log_predict M s a h = Ok (lp - av_lp s) /\ avg_inv (AVG ms lp).
  Proof.
    intros (Hne & HI & Hlp) Ha Hh Hw ms lp.
    assert (Hms: ms <> []) by (unfold ms; destruct (av_models s); [congruence|discriminate]).
    repeat split.
    - unfold avg_update. rewrite (mapM_ok _ (upd_entry a h w)).
      + cbn [bind]. fold ms. rewrite logsumexp_ok by (apply avg_weights_ne; exact Hms). reflexivity.
      + intros [k [m l]] Hin. specialize (HI k m l Hin).
        destruct (upd_of_ok m a h w HI Ha Hh Hw) as (-> & _ & _). cbn [bind upd_entry].
        destruct (upd_of a h w m) as [m' x]. reflexivity.
    - unfold avg_log_predict. rewrite (mapM_ok _ (fun kv => snd (upd_of a h w (fst (snd kv))) + snd (snd kv))).
      + cbn [bind]. rewrite logsumexp_ok.
        * cbn [bind]. f_equal. f_equal. unfold lp. do 3 f_equal. unfold ms, avg_weights.
          rewrite map_map. apply map_ext. intros [k [m l]]. cbn [upd_entry fst snd]. lra.
        * destruct (av_models s); [congruence|discriminate].
      + intros [k [m l]] Hin. specialize (HI k m l Hin). cbn [fst snd].
        destruct (upd_of_ok m a h w HI Ha Hh Hw) as (_ & -> & _). reflexivity.
    - exact Hms.
    - cbn [av_models]. intros k m l Hin. unfold ms in Hin. apply in_map_iff in Hin as ([k0 [m0 l0]] & E & Hin).
      cbn [upd_entry] in E. injection E as <- <- <-. apply (upd_of_ok m0 a h w (HI _ _ _ Hin) Ha Hh Hw).
  Qed.

  Lemma avg_steps : steps (AVG_model M) A okh okw avg_inv.
  Proof.
    intros s a h w HI Ha Hh Hw. destruct (avg_update_ok s a h w HI Ha Hh Hw) as (Hu & Hp & HI').
    do 2 eexists. split; [exact Hu|]. split; [exact Hp|exact HI'].
  Qed.

  Lemma avg_lawful : lawful M A okh okw Inv -> (exists w, okw w) -> lawful (AVG_model M) A okh okw avg_inv.
  Proof.
    intros HL [w0 Hw0]. split.
    - exact avg_steps.
    - intros s h HI Hh.
      assert (Hd: 0 < Rsum (map exp (avg_weights (av_models s)))) by (apply exp_sum_pos, avg_weights_ne, HI).
      rewrite (Rsum_map_ext _ (fun a => Rsum (map (fun kv => pred_prob M (fst (snd kv)) a h * exp (snd (snd kv))) (av_models s))
                                    * / Rsum (map exp (avg_weights (av_models s))))).
      + rewrite Rsum_scal_r. rewrite Rsum_swap.
        rewrite (Rsum_map_ext _ (fun kv => exp (snd (snd kv)))).
        * replace (map exp (avg_weights (av_models s))) with (map (fun kv => exp (snd (snd kv))) (av_models s)).
          2:{ unfold avg_weights. rewrite map_map. reflexivity. }
          unfold avg_weights in Hd. rewrite map_map in Hd. apply Rinv_r. lra.
        * intros [k [m l]] Hin. cbn [fst snd]. rewrite Rsum_scal_r.
          rewrite (law_norm _ _ _ _ _ HL m h); [lra|apply HI in Hin; exact Hin|exact Hh].
      + intros a Ha. destruct (avg_update_ok s a h w0 HI Ha Hh Hw0) as (_ & Hp & HI').
        unfold pred_prob at 1. cbn [AVG_model m_logp]. rewrite Hp.
        rewrite exp_minus. unfold Rdiv. destruct HI as (Hne & HI & Hlp). rewrite Hlp, !exp_ln; [|exact Hd|].
        * f_equal. unfold avg_weights. rewrite !map_map. apply Rsum_map_ext. intros [k [m l]] Hin.
          cbn [upd_entry fst snd]. unfold pred_prob.
          destruct (upd_of_ok m a h w0 (HI _ _ _ Hin) Ha Hh Hw0) as (_ & -> & _).
          rewrite exp_plus. lra.
        * apply exp_sum_pos, avg_weights_ne. destruct HI' as (H & _). exact H.
  Qed.

  (** ** Representation: each entry is its initial model after the events. *)
  Definition avg_rep (n : R) (ms : list (Z * S)) (evs : list event) (s : avg S) : Prop :=
    Forall2 (fun km kv => fst km = fst kv /\ exists l, run M (snd km) evs = Ok (fst (snd kv), l) /\
                          snd (snd kv) = ln (1 / n) + l) ms (av_models s) /\
    av_lp s = ln (Rsum (map exp (avg_weights (av_models s)))).

  Lemma avg_init_ok (ms : list (Z * S)) : ms <> [] -> NoDup (map fst ms) ->
    (forall k m, In (k, m) ms -> Inv m) ->
    exists s, avg_init ms = Ok s /\ avg_inv s /\ avg_rep (INR (length ms)) ms [] s /\ av_lp s = 0.
  Proof.
    intros Hne Hnd HI. set (n := INR (length ms)).
    assert (Hn: 0 < n). { apply lt_0_INR. destruct ms; [congruence|cbn; lia]. }
    assert (Hq: 0 < 1 / n) by (apply Rdiv_lt_0_compat; lra).
    unfold avg_init. fold n. rewrite py_div_ok by lra. cbn [bind]. rewrite py_log_ok by exact Hq. cbn [bind].
    pose proof (fold_dict_set_app (fst (A:=Z) (B:=S)) (fun kv => (snd kv, ln (1 / n))) ms []) as Hf.
    rewrite Hf; [|exact Hnd|intros x _ []]. cbn [app].
    assert (Hlp: 0 = ln (Rsum (map exp (avg_weights (map (fun x : Z * S => (fst x, (snd x, ln (1 / n)))) ms))))).
    { unfold avg_weights. rewrite !map_map. cbn [snd].
      rewrite Rsum_const, exp_ln by exact Hq. fold n. replace (n * (1 / n)) with 1 by (field; lra).
      rewrite ln_1; reflexivity. }
    eexists; split; [reflexivity|]. repeat split; cbn [av_models av_lp]; auto.
    - destruct ms; [congruence|discriminate].
    - intros k m l Hin. apply in_map_iff in Hin as ([k0 m0] & E & Hin). injection E as <- <- <-. eauto.
    - generalize n. clear. intros n. induction ms as [|[k m] ms IH]; cbn [map]; constructor; [|exact IH].
      cbn [fst snd]. split; [reflexivity|]. exists 0. cbn [run]. split; [reflexivity|lra].
  Qed.

  Lemma avg_rep_step n ms evs s e : avg_inv s -> avg_rep n ms evs s -> ok_event A okh okw e ->
    exists s' l, avg_update M s (ev_sym e) (ev_hist e) (ev_wt e) = Ok (s', l) /\
      avg_inv s' /\ avg_rep n ms (evs ++ [e]) s' /\ l = av_lp s' - av_lp s.
  Proof.
    intros HI [HF Hlp] (Ha & Hh & Hw).
    destruct (avg_update_ok s _ _ _ HI Ha Hh Hw) as (Hu & _ & HI').
    do 2 eexists. split; [exact Hu|]. split; [exact HI'|]. split; [|reflexivity].
    split; [|reflexivity]. cbn [av_models].
    destruct HI as (_ & HI & _). revert HF HI. generalize (av_models s) as d. clear -HS Ha Hh Hw.
    induction ms as [|[k0 m0] ms IH]; intros d HF HI; inversion HF as [|x y l1 l2 H1 H2]; subst; cbn [map]; constructor.
    - destruct y as [k [m lp]]. cbn [fst snd] in H1. destruct H1 as (<- & l & Hr & Hlp).
      cbn [upd_entry fst snd]. split; [reflexivity|].
      specialize (HI k0 m lp (or_introl eq_refl)).
      destruct (upd_of_ok m _ _ _ HI Ha Hh Hw) as (Hu & _ & _).
      exists (l + snd (upd_of (ev_sym e) (ev_hist e) (ev_wt e) m)). split.
      + eapply run_snoc; [exact Hr|]. rewrite Hu. destruct (upd_of _ _ _ m); reflexivity.
      + lra.
    - apply IH; [exact H2|]. intros k m lp Hin. apply (HI k m lp). right; exact Hin.
  Qed.

  Lemma avg_rep_run n ms evs0 evs s : avg_inv s -> avg_rep n ms evs0 s -> Forall (ok_event A okh okw) evs ->
    exists s' l, run (AVG_model M) s evs = Ok (s', l) /\ avg_inv s' /\ avg_rep n ms (evs0 ++ evs) s' /\
                 l = av_lp s' - av_lp s.
  Proof.
    revert evs0 s; induction evs as [|e evs IH]; intros evs0 s HI HR Hev; cbn [run].
    - exists s, 0. rewrite app_nil_r. repeat split; auto; try apply HI; try apply HR. lra.
    - inversion Hev as [|x y He Hev']; subst. cbn [AVG_model m_update]. 
      destruct (avg_rep_step n ms evs0 s e HI HR He) as (s1 & l1 & -> & HI1 & HR1 & Hl1). cbn [bind].
      fold (AVG_model M).
      destruct (IH _ _ HI1 HR1 Hev') as (s2 & l2 & -> & HI2 & HR2 & Hl2). cbn [bind].
      exists s2, (l1 + l2). rewrite <- app_assoc in HR2. repeat split; auto; try apply HI2; try apply HR2. lra.
  Qed.

  Lemma avg_rep_weight n ms evs s : 0 < n -> avg_rep n ms evs s ->
    Rsum (map exp (avg_weights (av_models s))) = / n * Rsum (map (fun km => seq_prob M (snd km) evs) ms).
  Proof.
    intros Hn [HF _]. revert HF. generalize (av_models s) as d.
    induction ms as [|[k0 m0] ms IH]; intros d HF; inversion HF as [|x y l1 l2 H1 H2]; subst; unfold avg_weights; cbn [map].
    - rewrite Rsum_nil. lra.
    - rewrite !Rsum_cons. fold (@avg_weights S l2). rewrite (IH l2 H2).
      destruct y as [k [m lp]]. cbn [fst snd] in *. destruct H1 as (_ & l & Hr & ->).
      rewrite (seq_prob_run _ _ _ _ _ Hr), exp_plus, exp_ln by (apply Rdiv_lt_0_compat; lra). lra.
  Qed.

  (** The Averager is the uniform Bayesian mixture. *)
  Lemma avg_mixture ms evs : ms <> [] -> NoDup (map fst ms) -> (forall k m, In (k, m) ms -> Inv m) ->
    Forall (ok_event A okh okw) evs ->
    exists s0 s l, avg_init ms = Ok s0 /\ run (AVG_model M) s0 evs = Ok (s, l) /\ avg_inv s /\
      avg_rep (INR (length ms)) ms evs s /\ l = av_lp s /\
      exp l = / INR (length ms) * Rsum (map (fun km => seq_prob M (snd km) evs) ms).
  Proof.
    intros Hne Hnd HI Hev. destruct (avg_init_ok ms Hne Hnd HI) as (s0 & H0 & HI0 & HR0 & Hz).
    destruct (avg_rep_run _ ms [] evs s0 HI0 HR0 Hev) as (s & l & Hr & HIs & HRs & Hl).
    exists s0, s, l. cbn [app] in HRs. rewrite Hz in Hl. repeat split; auto; try apply HIs; try apply HRs; [lra|].
    assert (Hn: 0 < INR (length ms)). { apply lt_0_INR. destruct ms; [congruence|cbn; lia]. }
    rewrite Rminus_0_r in Hl. rewrite Hl. destruct HIs as (Hne' & _ & ->).
    rewrite exp_ln by (apply exp_sum_pos, avg_weights_ne; exact Hne').
    apply (avg_rep_weight _ ms evs s Hn HRs).
  Qed.

  (** Regret at most ln n against each member; never better than the best. *)
  Lemma avg_regret ms evs s0 s l : ms <> [] -> NoDup (map fst ms) -> (forall k m, In (k, m) ms -> Inv m) ->
    Forall (ok_event A okh okw) evs ->
    avg_init ms = Ok s0 -> run (AVG_model M) s0 evs = Ok (s, l) ->
    (forall k m s' li, In (k, m) ms -> run M m evs = Ok (s', li) -> - l <= - li + ln (INR (length ms))) /\
    (exists k m s' li, In (k, m) ms /\ run M m evs = Ok (s', li) /\ - li <= - l).
  Proof.
    intros Hne Hnd HI Hev H0 Hr.
    destruct (avg_mixture ms evs Hne Hnd HI Hev) as (s0' & s1 & l' & H0' & Hr' & _ & _ & _ & Hmix).
    rewrite H0 in H0'. injection H0' as <-. rewrite Hr in Hr'. injection Hr' as <- <-.
    set (n := INR (length ms)) in *.
    assert (Hn: 0 < n). { apply lt_0_INR. destruct ms; [congruence|cbn; lia]. }
    assert (Hpos: forall y, In y (map (fun km => seq_prob M (snd km) evs) ms) -> 0 <= y).
    { intros y Hy. apply in_map_iff in Hy as ([k m] & <- & Hin). left.
      apply (steps_seq_prob_pos M A okh okw Inv HS); [apply (HI k m Hin)|exact Hev]. }
    split.
    - intros k m s' li Hin Hm.
      assert (Hge: exp li <= Rsum (map (fun km => seq_prob M (snd km) evs) ms)).
      { apply Rsum_ge_elem; [exact Hpos|]. apply in_map_iff. exists (k, m). split; [|exact Hin].
        cbn [snd]. apply (seq_prob_run _ _ _ _ _ Hm). }
      assert (H: exp (li - ln n) <= exp l).
      { rewrite exp_minus, exp_ln by exact Hn. rewrite Hmix. unfold Rdiv. rewrite Rmult_comm.
        apply Rmult_le_compat_l; [left; apply Rinv_0_lt_compat; exact Hn|exact Hge]. }
      assert (li - ln n <= l).
      { destruct (Rle_dec (li - ln n) l) as [|Hc]; [assumption|]. exfalso.
        apply Rnot_le_lt in Hc. apply exp_increasing in Hc. lra. }
      lra.
    - (* otherwise all members are below, so is the average *)
      destruct (Exists_dec (fun km => exp l <= seq_prob M (snd km) evs) ms) as [Hex|Hnex].
      { intros km. apply Rle_dec. }
      + apply Exists_exists in Hex as ([k m] & Hin & Hle). cbn [snd] in Hle.
        destruct (steps_run M A okh okw Inv HS m evs (HI k m Hin) Hev) as (s' & li & Hm & _).
        rewrite (seq_prob_run _ _ _ _ _ Hm) in Hle.
        exists k, m, s', li. repeat split; auto.
        destruct (Rle_dec (- li) (- l)) as [|Hc]; [assumption|]. exfalso.
        apply Rnot_le_lt in Hc. assert (Hlt: li < l) by lra. apply exp_increasing in Hlt. lra.
      + exfalso.
        assert (Hlt: Rsum (map (fun km => seq_prob M (snd km) evs) ms) < n * exp l).
        { unfold n. rewrite <- Rsum_const with (l := ms).
          clear -Hnex Hne. assert (Hall: forall km, In km ms -> seq_prob M (snd km) evs < exp l).
          { intros km Hin. apply Rnot_le_lt. intros Hc. apply Hnex, Exists_exists. eauto. }
          destruct ms as [|km ms]; [congruence|]. cbn [map]. rewrite !Rsum_cons.
          pose proof (Hall km (or_introl eq_refl)).
          assert (Rsum (map (fun km => seq_prob M (snd km) evs) ms) <= Rsum (map (fun _ => exp l) ms)).
          { apply Rsum_le. intros x Hx. left. apply Hall. right; exact Hx. }
          lra. }
        rewrite Hmix in Hlt at 1.
        replace (n * (/ n * Rsum (map (fun km => seq_prob M (snd km) evs) ms)))
          with (Rsum (map (fun km => seq_prob M (snd km) evs) ms)) in Hlt by (field; lra). lra.
  Qed.

  (** ** map *)
  Lemma max_by_spec (best : Z * (S * R)) d :
    (In (max_by best d) (best :: d)) /\
    (forall kv, In kv (best :: d) -> snd (snd kv) <= snd (snd (max_by best d))) /\
    (exists d1 d2, best :: d = d1 ++ max_by best d :: d2 /\
       forall kv, In kv d1 -> snd (snd kv) < snd (snd (max_by best d))).
  Proof.
    revert best; induction d as [|kv d IH]; intros best; cbn [max_by].
    - split; [left; reflexivity|]. split; [intros x [->|[]]; lra|].
      exists [], []. split; [reflexivity|intros x []].
    - destruct (Rlt_dec (snd (snd best)) (snd (snd kv))) as [Hlt|Hge].
      + destruct (IH kv) as (H1 & H2 & d1 & d2 & E & H3). split; [right; exact H1|]. split.
        * intros x [<-|Hx]; [|apply H2; exact Hx]. specialize (H2 kv (or_introl eq_refl)). lra.
        * exists (best :: d1), d2. cbn [app]. rewrite <- E. split; [reflexivity|].
          intros x [<-|Hx]; [|apply H3; exact Hx]. specialize (H2 kv (or_introl eq_refl)). lra.
      + destruct (IH best) as (H1 & H2 & d1 & d2 & E & H3). split; [|split].
        * destruct H1 as [H1|H1]; [left; exact H1|right; right; exact H1].
        * intros x [<-|[<-|Hx]]; [apply H2; left; reflexivity| |apply H2; right; exact Hx].
          specialize (H2 best (or_introl eq_refl)). lra.
        * destruct d1 as [|b d1]; cbn [app] in E.
          -- injection E as E1 E2. exists [], (kv :: d). cbn [app]. rewrite <- E1. split; [reflexivity|intros x []].
          -- injection E as E1 E2. subst b. exists (best :: kv :: d1), d2. cbn [app].
             rewrite E2 at 1. split; [reflexivity|].
             intros x [<-|[<-|Hx]].
             ++ apply H3; left; reflexivity.
             ++ specialize (H3 best (or_introl eq_refl)). lra.
             ++ apply H3; right; exact Hx.
  Qed.

  Lemma avg_map_spec (s : avg S) k m : avg_map s = Ok (k, m) ->
    exists lp d1 d2, av_models s = d1 ++ (k, (m, lp)) :: d2 /\
      (forall k' m' lp', In (k', (m', lp')) (av_models s) -> lp' <= lp) /\
      (forall k' m' lp', In (k', (m', lp')) d1 -> lp' < lp).
  Proof.
    unfold avg_map. destruct (av_models s) as [|kv d]; [discriminate|].
    destruct (max_by_spec kv d) as (_ & H2 & d1 & d2 & E & H3).
    destruct (max_by kv d) as [k0 [m0 lp0]]. intros H; injection H as <- <-.
    exists lp0, d1, d2. split; [exact E|]. split.
    - intros k' m' lp' Hin. apply (H2 (k', (m', lp')) Hin).
    - intros k' m' lp' Hin. apply (H3 (k', (m', lp')) Hin).
  Qed.
End averager.
