(** ctw.py's Averager against model.py's. *)
From Coq Require Import Lra.
From Verif Require Import Model.CtwFMN Model.CtwPTW Model.Averager Spec.Equiv Spec.CtwSpec.
From Verif Require Import Proofs.RealFacts Proofs.PyFacts Proofs.ProbFacts Proofs.AveragerFacts Proofs.EquivFacts Proofs.FMNFacts.
Open Scope R_scope.

Lemma lse_shift c l : logsumexp (map (fun x => c + x) l) = do r <- logsumexp l; Ok (c + r).
Proof.
  destruct l as [|x l]; [reflexivity|]. rewrite !logsumexp_ok by discriminate. cbn [bind]. f_equal.
  rewrite map_map. rewrite (Rsum_map_ext _ (fun y => exp c * exp y)) by (intros; apply exp_plus).
  rewrite Rsum_scal_l. rewrite ln_mult, ln_exp; [reflexivity|apply exp_pos|apply exp_sum_pos; discriminate].
Qed.

Section facts.
  Context {S : Type} (Q : probseq S) (reset : S -> S).
  Notation M := (without_history (q_model Q)).
  Hypothesis Hlaw : forall s a h w s' l, m_update (q_model Q) s a h w = Ok (s', l) -> q_lp Q s' = q_lp Q s + l.

  Definition entries (c : R) (ms : list S) : dict (S * R) := number_from 0 (map (fun m => (m, c + q_lp Q m)) ms).
  Definition as_avg (s : qavg S) : avg S := AVG (entries (qa_log_1_over_n s) (qa_models s)) (qa_lp s).

  Lemma entries_weights c ms : forall i,
    avg_weights (number_from i (map (fun m => (m, c + q_lp Q m)) ms)) = map (fun x => c + x) (map (q_lp Q) ms).
  Proof. induction ms as [|m ms IH]; intros i; unfold avg_weights in *; cbn [map number_from snd]; [reflexivity|]. f_equal. apply IH. Qed.

  Lemma update_sim s a h w :
    sim_result (fun q x => as_avg q = x) (qavg_update Q s a h w) (avg_update M (as_avg s) a h w).
  Proof.
    unfold qavg_update, avg_update, as_avg at 2 3. cbn [av_models av_lp]. unfold entries.
    set (c := qa_log_1_over_n s).
    assert (G : forall ms i,
      mapM (fun kv : Z * (S * R) => let '(k, (m, lp)) := kv in
              do (m', l) <- m_update M m a h w; Ok (k, (m', lp + l)))
           (number_from i (map (fun m => (m, c + q_lp Q m)) ms)) =
      do ms' <- mapM (fun m => do (m', _) <- m_update (q_model Q) m a [] w; Ok m') ms;
      Ok (number_from i (map (fun m => (m, c + q_lp Q m)) ms'))).
    { induction ms as [|m ms IH]; intros i; cbn [map number_from mapM]; [reflexivity|].
      cbn [without_history m_update]. destruct (m_update (q_model Q) m a [] w) as [[m' l]|e] eqn:E; cbn [bind]; [|reflexivity].
      cbn [without_history m_update] in IH. rewrite IH.
      destruct (mapM _ ms) as [ms'|e]; cbn [bind]; [|reflexivity]. cbn [map number_from].
      rewrite (Hlaw _ _ _ _ _ _ E). do 4 f_equal. lra. }
    rewrite G. destruct (mapM _ (qa_models s)) as [ms'|e]; cbn [bind sim_result]; [|reflexivity].
    rewrite entries_weights, lse_shift.
    destruct (logsumexp (map (q_lp Q) ms')) as [l|e]; cbn [bind sim_result]; [|reflexivity].
    split; reflexivity.
  Qed.

  Lemma logp_sim s a h : qavg_log_predict Q s a h = avg_log_predict M (as_avg s) a h.
  Proof.
    unfold qavg_log_predict, avg_log_predict, as_avg. cbn [av_models av_lp]. unfold entries.
    set (c := qa_log_1_over_n s).
    assert (G : forall ms i,
      mapM (fun kv : Z * (S * R) => let '(k, (m, lp)) := kv in do l <- m_logp M m a h; Ok (l + lp))
           (number_from i (map (fun m => (m, c + q_lp Q m)) ms)) =
      do ls <- mapM (fun m => do l <- m_logp (q_model Q) m a []; Ok (l + q_lp Q m)) ms;
      Ok (map (fun x => c + x) ls)).
    { induction ms as [|m ms IH]; intros i; cbn [map number_from mapM]; [reflexivity|].
      cbn [without_history m_logp] in *. destruct (m_logp (q_model Q) m a []) as [l|e]; cbn [bind]; [|reflexivity].
      rewrite IH. destruct (mapM _ ms) as [ls|e]; cbn [bind]; [|reflexivity]. cbn [map]. do 2 f_equal. lra. }
    rewrite G. destruct (mapM _ (qa_models s)) as [ls|e]; cbn [bind]; [|reflexivity].
    rewrite lse_shift. destruct (logsumexp ls) as [l|e]; cbn [bind]; reflexivity.
  Qed.

  Notation AM := (q_model (QAVG_class Q)).

  Lemma qavg_same s : same_values AM s (AVG_model M) (as_avg s) (fun _ => True).
  Proof.
    apply (sim_values _ _ (fun q x => as_avg q = x)); [| |reflexivity].
    - intros q x e <- _. apply update_sim.
    - intros q x e <- _. apply logp_sim.
  Qed.

  Lemma qavg_run s evs : sim_result (fun q x => as_avg q = x) (run AM s evs) (run (AVG_model M) (as_avg s) evs).
  Proof.
    apply (sim_run _ _ (fun q x => as_avg q = x) (fun _ => True)); [|reflexivity|apply Forall_forall; intros; exact I].
    intros q x e <- _. apply update_sim.
  Qed.

  (** It adds up what it returns, like its members. *)
  Lemma qavg_law s a h w s' l : m_update AM s a h w = Ok (s', l) -> q_lp (QAVG_class Q) s' = q_lp (QAVG_class Q) s + l.
  Proof.
    cbn [QAVG_class q_model m_update q_lp]. unfold qavg_update.
    destruct (mapM _ (qa_models s)) as [ms|]; cbn [bind]; [|discriminate].
    destruct (logsumexp _) as [x|]; cbn [bind]; [|discriminate]. intros E; injection E as <- <-. cbn [qa_lp]. lra.
  Qed.

  (** ** Resetting the members' log_prob *)
  Hypothesis Hr0 : forall s, q_lp Q (reset s) = 0.

  Lemma qavg_init_sim ms :
    (do s <- qavg_init reset ms; Ok (as_avg s)) = avg_init (number_from 0 (map reset ms)).
  Proof.
    unfold qavg_init, avg_init. rewrite number_from_length, map_length.
    destruct (py_div 1 (INR (length ms))) as [q|e]; cbn [bind]; [|reflexivity].
    destruct (py_log q) as [l|e]; cbn [bind]; [|reflexivity]. f_equal.
    pose proof (fold_dict_set_app (fst (A:=Z) (B:=S)) (fun kv => (snd kv, l)) (number_from 0 (map reset ms)) []) as Hf.
    rewrite Hf; [|apply number_from_nodup|intros x _ []]. cbn [app]. unfold as_avg. cbn [qa_models qa_log_1_over_n qa_lp].
    f_equal. unfold entries. clear Hf. generalize 0%Z as i.
    induction ms as [|m ms IH]; intros i; cbn [map number_from fst snd]; [reflexivity|].
    rewrite Hr0, Rplus_0_r. f_equal. apply IH.
  Qed.

  Context (A : list Z) (okw : R -> Prop) (Inv : S -> Prop).
  Notation bare := (fun h : list Z => h = []).
  Hypothesis HS : steps (q_model Q) A bare okw Inv.
  Hypothesis Hri : forall s, Inv s -> Inv (reset s).

  Definition qavg_inv (s : qavg S) : Prop := avg_inv Inv (as_avg s).

  Lemma wh_steps okh : steps M A okh okw Inv.
  Proof. intros s a h w Hs Ha _ Hw. apply (HS s a [] w Hs Ha eq_refl Hw). Qed.
  Lemma wh_lawful okh : lawful (q_model Q) A bare okw Inv -> lawful M A okh okw Inv.
  Proof.
    intros HL. split; [apply wh_steps|]. intros s h Hs _. apply (law_norm _ _ _ _ _ HL s [] Hs eq_refl).
  Qed.

  Lemma qavg_steps okh : steps AM A okh okw qavg_inv.
  Proof.
    intros s a h w Hs Ha Hh Hw.
    destruct (avg_steps M A okh okw Inv (wh_steps okh) (as_avg s) a h w Hs Ha Hh Hw) as (x & l & Hu & Hp & Hi).
    cbn [AVG_model m_update m_logp] in Hu, Hp.
    pose proof (update_sim s a h w) as G. rewrite Hu in G.
    destruct (qavg_update Q s a h w) as [[s' l']|e] eqn:E; cbn [sim_result] in G; [|contradiction].
    destruct G as (<- & ->). exists s', l. cbn [QAVG_class q_model m_update m_logp].
    split; [exact E|]. split; [rewrite logp_sim; exact Hp|exact Hi].
  Qed.

  Lemma qavg_lawful okh : lawful (q_model Q) A bare okw Inv -> (exists w, okw w) -> lawful AM A okh okw qavg_inv.
  Proof.
    intros HL Hw. split; [apply qavg_steps|]. intros s h Hs Hh.
    rewrite <- (law_norm _ _ _ _ _ (avg_lawful M A okh okw Inv (wh_steps okh) (wh_lawful okh HL) Hw) (as_avg s) h Hs Hh).
    apply Rsum_map_ext. intros a _. unfold pred_prob. cbn [QAVG_class q_model m_logp AVG_model]. rewrite logp_sim. reflexivity.
  Qed.

  Lemma qavg_init_ok ms : ms <> [] -> Forall Inv ms ->
    exists s, qavg_init reset ms = Ok s /\ qavg_inv s /\ qa_lp s = 0 /\ qa_models s = map reset ms.
  Proof.
    intros Hne HI. pose proof (qavg_init_sim ms) as G.
    destruct (avg_init_ok M Inv (number_from 0 (map reset ms))) as (x & E & Hi & _ & H0).
    - destruct ms; [congruence|discriminate].
    - apply number_from_nodup.
    - intros k m Hk. apply number_from_keys in Hk as (_ & Hk). apply in_map_iff in Hk as (m0 & <- & Hm).
      rewrite Forall_forall in HI. apply Hri, HI, Hm.
    - rewrite E in G. destruct (qavg_init reset ms) as [s|e] eqn:Es; cbn [bind] in G; [|discriminate].
      injection G as <-. exists s. split; [reflexivity|]. split; [exact Hi|]. split; [exact H0|].
      unfold qavg_init in Es. destruct (py_div 1 _); cbn [bind] in Es; [|discriminate].
      destruct (py_log _); cbn [bind] in Es; [|discriminate]. injection Es as <-. reflexivity.
  Qed.

  Lemma map_number (f : S -> R) ms : forall i, map (fun km => f (snd km)) (number_from i ms) = map f ms.
  Proof. induction ms as [|m ms IH]; intros i; cbn [number_from map snd]; [reflexivity|]. f_equal. apply IH. Qed.

  (** The uniform mixture of the reset members; each member is the one it started from, fed with
      the events. *)
  Lemma qavg_mixture0 ms evs : ms <> [] -> Forall Inv ms -> Forall (ok_event A bare okw) evs ->
    exists s0 s l, qavg_init reset ms = Ok s0 /\ run AM s0 evs = Ok (s, l) /\ qavg_inv s /\
      exp l = / INR (length ms) * Rsum (map (fun m => seq_prob (q_model Q) (reset m) evs) ms) /\
      Forall2 (fun m m' => exists l, run (q_model Q) (reset m) evs = Ok (m', l) /\ q_lp Q m' = l) ms (qa_models s).
  Proof.
    intros Hne HI Hev. destruct (qavg_init_ok ms Hne HI) as (s0 & E0 & Hi0 & H0 & Hm0).
    set (kms := number_from 0 (map reset ms)).
    assert (Hk1 : kms <> []) by (unfold kms; destruct ms; [congruence|discriminate]).
    assert (Hk2 : forall k m, In (k, m) kms -> Inv m).
    { intros k m Hk. apply number_from_keys in Hk as (_ & Hk). apply in_map_iff in Hk as (m0 & <- & Hm).
      rewrite Forall_forall in HI. apply Hri, HI, Hm. }
    destruct (avg_mixture M A bare okw Inv (wh_steps _) kms evs Hk1 (number_from_nodup _ _) Hk2 Hev)
      as (x0 & x & l & Ex & Er & Hxi & Hrep & _ & Hexp).
    pose proof (qavg_init_sim ms) as G. rewrite E0 in G. cbn [bind] in G. unfold kms in Ex. rewrite Ex in G. injection G as <-.
    pose proof (qavg_run s0 evs) as G. rewrite Er in G.
    destruct (run AM s0 evs) as [[s l']|] eqn:Es; cbn [sim_result] in G; [|contradiction]. destruct G as (<- & ->).
    exists s0, s, l. split; [exact E0|]. split; [exact Es|]. split; [exact Hxi|].
    assert (Hseq : forall m, seq_prob M m evs = seq_prob (q_model Q) m evs).
    { intros m. clear -Hev. revert m. induction Hev as [|e evs He Hev IH]; intros m; cbn [seq_prob]; [reflexivity|].
      cbn [without_history m_update]. destruct He as (_ & -> & _).
      destruct (m_update (q_model Q) m (ev_sym e) [] (ev_wt e)) as [[m1 l1]|]; [|reflexivity].
      cbn [without_history] in IH. rewrite IH. reflexivity. }
    assert (Hrun : forall m, run M m evs = run (q_model Q) m evs).
    { intros m. clear -Hev. revert m. induction Hev as [|e evs He Hev IH]; intros m; cbn [run]; [reflexivity|].
      cbn [without_history m_update]. destruct He as (_ & -> & _).
      destruct (m_update (q_model Q) m (ev_sym e) [] (ev_wt e)) as [[m1 l1]|]; cbn [bind]; [|reflexivity].
      cbn [without_history] in IH. rewrite IH. reflexivity. }
    split.
    - rewrite Hexp. unfold kms. rewrite number_from_length, map_length, (map_number (fun m => seq_prob M m evs)), map_map.
      do 2 f_equal. apply map_ext. intros m. apply Hseq.
    - destruct Hrep as [HF _]. cbn [as_avg av_models] in HF. unfold entries in HF. unfold kms in HF.
      assert (Hacc : forall evs m m' l, run (q_model Q) m evs = Ok (m', l) -> q_lp Q m' = q_lp Q m + l).
      { clear -Hlaw. induction evs as [|e evs IH]; intros m m' l Er; cbn [run] in Er; [injection Er as -> <-; lra|].
        destruct (m_update (q_model Q) m (ev_sym e) (ev_hist e) (ev_wt e)) as [[m1 l1]|] eqn:E1; cbn [bind] in Er; [|discriminate].
        destruct (run (q_model Q) m1 evs) as [[m2 l2]|] eqn:E2; cbn [bind] in Er; [|discriminate].
        injection Er as -> <-. rewrite (IH _ _ _ E2), (Hlaw _ _ _ _ _ _ E1). lra. }
      clear -HF Hrun Hr0 Hacc. revert HF. generalize (INR (length (number_from 0 (map reset ms)))) as n0. intros n0. generalize 0%Z as i. generalize (qa_models s) as ms'.
      generalize (qa_log_1_over_n s) as c. intros c ms'. revert ms'.
      induction ms as [|m ms IH]; intros ms' i HF; destruct ms' as [|m' ms']; cbn [map number_from] in HF;
        inversion HF as [|x y l1 l2 H1 H2]; subst; constructor.
      + cbn [fst snd] in H1. destruct H1 as (_ & l & Hr & _). rewrite Hrun in Hr. exists l. split; [exact Hr|].
        rewrite (Hacc _ _ _ _ Hr), Hr0. lra.
      + apply (IH ms' (i + 1)%Z). exact H2.
  Qed.

  Lemma qmax_in l : forall b, In (qmax_by Q b l) (b :: l).
  Proof.
    induction l as [|x l IH]; intros b; cbn [qmax_by]; [left; reflexivity|].
    destruct (Rlt_dec _ _); destruct (IH (if Rlt_dec (q_lp Q b) (q_lp Q x) then x else b)) as [H|H];
      destruct (Rlt_dec (q_lp Q b) (q_lp Q x)); try contradiction; cbn [In] in *; tauto.
  Qed.

  Lemma qmax_max l : forall b m, In m (b :: l) -> q_lp Q m <= q_lp Q (qmax_by Q b l).
  Proof.
    induction l as [|x l IH]; intros b m H; cbn [qmax_by].
    - destruct H as [<-|[]]. lra.
    - destruct (Rlt_dec (q_lp Q b) (q_lp Q x)) as [Hlt|Hge].
      + destruct H as [<-|H]; [|apply IH; exact H]. specialize (IH x x (or_introl eq_refl)). lra.
      + destruct H as [<-|[<-|H]]; [apply IH; left; reflexivity| |apply IH; right; exact H].
        specialize (IH b b (or_introl eq_refl)). lra.
  Qed.

  (** ** When [log_prob] is only a running total *)
  (** resetting it shows in no value returned later *)
  Hypothesis Hrt : forall s a h w,
    (do (s', l) <- m_update (q_model Q) (reset s) a h w; Ok (reset s', l)) =
    (do (s', l) <- m_update (q_model Q) s a h w; Ok (reset s', l)).

  Lemma reset_seq evs : forall m m', reset m = reset m' -> seq_prob (q_model Q) m evs = seq_prob (q_model Q) m' evs.
  Proof.
    induction evs as [|e evs IH]; intros m m' E; cbn [seq_prob]; [reflexivity|].
    pose proof (Hrt m (ev_sym e) (ev_hist e) (ev_wt e)) as H1. pose proof (Hrt m' (ev_sym e) (ev_hist e) (ev_wt e)) as H2.
    rewrite E, H2 in H1.
    destruct (m_update (q_model Q) m _ _ _) as [[x l]|]; destruct (m_update (q_model Q) m' _ _ _) as [[x' l']|]; cbn [bind] in H1; try discriminate; [|reflexivity].
    injection H1 as E1 E2. rewrite E2. f_equal. apply IH. congruence.
  Qed.

  Lemma reset_seq_prob m evs : reset (reset m) = reset m -> seq_prob (q_model Q) (reset m) evs = seq_prob (q_model Q) m evs.
  Proof. apply reset_seq. Qed.
End facts.
