(** The CTW of ctw.py, which keeps its own history, learns trees over any alphabet. *)
From Coq Require Import Lra Lia.
From Verif Require Import Model.KT Model.CTW Model.CtwCTW Model.CtwFMN Spec.LearnSpec Spec.CtwSpec Spec.Equiv Spec.SeqSpec.
From Verif Require Import Proofs.RealFacts Proofs.PyFacts Proofs.ProbFacts Proofs.KTFacts Proofs.SADFacts Proofs.CTWProps.
From Verif Require Proofs.CtwFactorizeTop Proofs.CtwCTWTop.
From Verif Require Import Proofs.CtwKTFacts Proofs.CtwSADFacts Proofs.LearnEst Proofs.LearnTop.
Open Scope R_scope.

Definition units (seq : list Z) : list hop := updates (map (fun a => (a, 1)) seq).
Definition as_op (e : event) : op := OpUpdate (ev_sym e) (ev_hist e) (ev_wt e).

Lemma with_units seq : forall h, with_history h (units seq) = map as_op (events_from h seq 1).
Proof. induction seq as [|a seq IH]; intros h; [reflexivity|]. unfold units, updates in *. cbn. f_equal. apply IH. Qed.
Lemma with_episodes seqs : flat_map (with_history []) (map units seqs) = map as_op (flat_map (fun seq => events_from [] seq 1) seqs).
Proof. induction seqs as [|seq seqs IH]; [reflexivity|]. cbn [map flat_map]. rewrite map_app, IH, with_units. reflexivity. Qed.

Section own.
  Context {St : Type} (Q : probseq St).
  Hypothesis HQ : forall s a h w s' l, m_update (q_model Q) s a h w = Ok (s', l) -> q_lp Q s' = q_lp Q s + l.
  Variable fresh : St.
  Hypothesis Hlp : q_lp Q fresh = 0.
  Let M := without_history (q_model Q).
  Context (A : list Z) (okh : list Z -> Prop) (okw : R -> Prop) (Inv : St -> Prop).
  Hypothesis HS : steps M A okh okw Inv.
  Hypothesis Hfresh : Inv fresh.
  Context (src : (event -> R) -> Prop) (price : nat -> R) (ok : event -> Prop).
  Hypothesis Hok : forall e, ok e -> ok_event A okh okw e.
  Hypothesis Hlearn : learns M fresh ok src price.
  Hypothesis Hmono : forall a b, (a <= b)%nat -> price a <= price b.
  Hypothesis Hprice : forall n, 0 <= price n.
  Hypothesis Hsrc0 : forall r e, src r -> 0 <= r e.
  Variables (K : list Z) (D : nat).
  Hypothesis HK : NoDup K.
  Hypothesis H0 : In 0%Z K.
  Hypothesis HD : (0 < D)%nat.
  Context (L C : nat) (r : event -> R).
  Hypothesis Hr : tree_of src K D L C r.
  Let upd := qobj_update Q fresh (mkcontext (Z.of_nat D)).
  Let prd := qobj_log_predict Q fresh (mkcontext (Z.of_nat D)).
  Let init := qobj_init fresh (Z.of_nat D).

  Lemma own_total evs : Forall (fun e => ok e /\ incl (ev_hist e) K) evs -> 0 < Rprod (map r evs) ->
    exists s rs, exec (ctw_update M fresh false) (ctw_log_predict M fresh false) (ctw_init fresh (Z.of_nat D)) (map as_op evs) = Ok (s, rs) /\
      - Rsum rs <= - ln (Rprod (map r evs)) + INR L * price (length evs) + INR C * ln 2.
  Proof.
    intros Hev Hpos.
    assert (HB : false = true -> incl K [0; 1]%Z) by discriminate.
    assert (Hev2 : Forall (fun e => ok_event A okh okw e /\ incl (ev_hist e) K) evs)
      by (eapply Forall_impl; [|exact Hev]; intros e [He Hh]; split; [exact (Hok e He)|exact Hh]).
    destruct (ctw_total_mixture M fresh false A okh okw Inv K D HS Hfresh HK H0 HB HD evs Hev2) as (s & l & Hrun & _).
    pose proof (ctw_of_learner M A okh okw Inv HS fresh Hfresh src price ok Hok Hlearn Hmono Hprice Hsrc0 false K D HK H0 HB HD L C r evs Hr Hev Hpos) as G.
    rewrite (seq_prob_run _ _ _ _ _ Hrun), ln_exp in G.
    pose proof (CtwFactorizeTop.exec_run (CTW_model M fresh false) (ctw_log_predict M fresh false) evs (ctw_init fresh (Z.of_nat D))) as E.
    rewrite Hrun in E. unfold as_op.
    change (m_update (CTW_model M fresh false)) with (ctw_update M fresh false) in E.
    destruct (exec (ctw_update M fresh false) (ctw_log_predict M fresh false) (ctw_init fresh (Z.of_nat D)) _) as [[s' rs]|x]; cbn [bind] in E; [|discriminate].
    injection E as <- <-. exists s', rs. split; [reflexivity|]. lra.
  Qed.

  Theorem own_learns seq : let evs := events_from [] seq 1 in
    Forall (fun e => ok e /\ incl (ev_hist e) K) evs -> 0 < Rprod (map r evs) ->
    exists s rs, hexec upd prd init (updates (map (fun a => (a, 1)) seq)) = Ok (s, rs) /\
      - Rsum rs <= - ln (Rprod (map r evs)) + INR L * price (length seq) + INR C * ln 2.
  Proof.
    intros evs Hev Hpos. destruct (own_total evs Hev Hpos) as (s & rs & E & G).
    pose proof (CtwCTWTop.same_as_model Q HQ fresh Hlp D (units seq) HD) as H. rewrite (with_units seq []) in H. fold evs in H.
    fold M upd prd init in H. rewrite E in H. cbn [shown bind] in H.
    unfold units in H. destruct (hexec upd prd init (updates _)) as [[s' rs']|x]; cbn [shown bind] in H; [|discriminate].
    injection H as ->. exists s', rs. split; [reflexivity|].
    replace (length seq) with (length evs); [exact G|]. unfold evs. clear. generalize (@nil Z). induction seq as [|a seq IH]; intros h; cbn; [reflexivity|]. f_equal. apply IH.
  Qed.

  (** reset_history between the sequences *)
  Theorem own_learns_episodes seqs : let evs := flat_map (fun seq => events_from [] seq 1) seqs in
    Forall (fun e => ok e /\ incl (ev_hist e) K) evs -> 0 < Rprod (map r evs) ->
    exists s rs, episodes reset_history upd prd init (map (fun seq => updates (map (fun a => (a, 1)) seq)) seqs) = Ok (s, rs) /\
      - Rsum rs <= - ln (Rprod (map r evs)) + INR L * price (length evs) + INR C * ln 2.
  Proof.
    intros evs Hev Hpos. destruct (own_total evs Hev Hpos) as (s & rs & E & G).
    pose proof (CtwCTWTop.episodes_as_model Q HQ fresh Hlp D (map units seqs) HD) as H. rewrite with_episodes in H. fold evs in H.
    fold M upd prd init in H. rewrite E in H. cbn [shown bind] in H. change (fun seq => updates (map (fun a => (a, 1)) seq)) with units.
    destruct (episodes reset_history upd prd init (map units seqs)) as [[s' rs']|x]; cbn [shown bind] in H; [|discriminate].
    injection H as ->. exists s', rs. split; [reflexivity|]. exact G.
  Qed.
End own.

(** An estimator with the values of one that learns. *)
Lemma same_learns {S1 S2} (QM : model S1) q0 (M : model S2) s0 (okv : event -> Prop) A price :
  same_values QM q0 M s0 okv -> (forall x, In x A -> okv (Event x [] 1)) ->
  (forall xs, Forall (fun x => In x A) xs -> exists s l, run M s0 (unit_events xs) = Ok (s, l)) ->
  learns M s0 (symbol_of A) (memoryless A) price ->
  learns (without_history QM) q0 (symbol_of A) (memoryless A) price.
Proof.
  intros HV Hokv HM HL. apply learns_symbols; [reflexivity|]. intros theta xs Hd Hx Hpos.
  assert (E1 : forall s, seq_prob (without_history QM) s (unit_events xs) = seq_prob QM s (unit_events xs)).
  { clear. induction xs as [|x xs IH]; intros s; [reflexivity|]. unfold unit_events. cbn [map seq_prob ev_sym ev_hist ev_wt without_history m_update].
    destruct (m_update QM s x [] 1) as [[s1 l]|y]; [|reflexivity]. f_equal. apply IH. }
  rewrite E1. destruct (HM xs Hx) as (s & l & E).
  assert (Hl : exists s', run QM q0 (unit_events xs) = Ok (s', l)).
  { destruct xs as [|x xs]; [injection E as <- <-; eexists; reflexivity|].
    assert (Hx0 : In x A) by (inversion Hx; assumption).
    assert (HF : Forall okv (unit_events (x :: xs))) by (unfold unit_events; apply Forall_map; eapply Forall_impl; [|exact Hx]; intros y Hy; apply Hokv, Hy).
    destruct (HV (unit_events (x :: xs)) (Event x [] 1) HF (Hokv x Hx0)) as [G _]. rewrite E in G. cbn [bind] in G.
    destruct (run QM q0 (unit_events (x :: xs))) as [[s' l']|y]; cbn [bind] in G; [|discriminate]. injection G as ->. eauto. }
  destruct Hl as [s' E']. rewrite (seq_prob_run _ _ _ _ _ E').
  assert (Es : map (fun e => theta (ev_sym e)) (unit_events xs) = map theta xs) by (unfold unit_events; rewrite map_map; reflexivity).
  pose proof (HL (fun e => theta (ev_sym e)) (unit_events xs) ltac:(exists theta; split; [exact Hd|reflexivity])) as H.
  rewrite Es, (seq_prob_run _ _ _ _ _ E) in H. unfold unit_events in H at 2. rewrite map_length in H. apply H; [|exact Hpos].
  unfold unit_events. apply Forall_map. eapply Forall_impl; [|exact Hx]. intros y Hy. split; [exact Hy|reflexivity].
Qed.

Lemma qkt_learns A : NoDup A -> (2 <= length A)%nat ->
  learns (without_history (q_model QKT_class)) (qkt_init A) (symbol_of A) (memoryless A) (learn_any (length A)).
Proof.
  intros HA Hk. pose proof (A_ne A Hk) as Hne.
  apply (same_learns _ _ KT_model (kt_init A) (fun e => 0 <= ev_wt e)); [apply qkt_same; assumption|intros; cbn; lra| |apply kt_learns; assumption].
  intros xs Hx. exact (proj1 (SADRedundancy.any_runs A xs HA Hne Hx)).
Qed.
Lemma qsad_learns A : NoDup A -> A <> [] ->
  learns (without_history (q_model QSAD_class)) (qsad_init (Z.of_nat (length A))) (symbol_of A) (memoryless A) (sad_learn (length A)).
Proof.
  intros HA Hne.
  apply (same_learns _ _ SAD_model (sad_init (Z.of_nat (length A))) (fun _ => True)); [apply qsad_same|trivial| |apply sad_learns; assumption].
  intros xs Hx. exact (proj2 (SADRedundancy.any_runs A xs HA Hne Hx)).
Qed.
