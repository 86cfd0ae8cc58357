(** Consequences of lawfulness. *)
From Coq Require Import Lra.
From Verif Require Import Model.Iface Spec.Prob Proofs.RealFacts Proofs.PyFacts.
Open Scope R_scope.

Section facts.
  Context {S : Type} (M : model S).

  Lemma run_app s evs1 evs2 :
    run M s (evs1 ++ evs2) =
    do (s1, l1) <- run M s evs1; do (s2, l2) <- run M s1 evs2; Ok (s2, l1 + l2).
  Proof.
    revert s; induction evs1 as [|e evs1 IH]; intros s; cbn [app run].
    - cbn [bind]. destruct (run M s evs2) as [[s2 l2]|x]; cbn [bind]; [|reflexivity].
      rewrite Rplus_0_l. reflexivity.
    - destruct (m_update M s (ev_sym e) (ev_hist e) (ev_wt e)) as [[s1 l]|x]; cbn [bind]; [|reflexivity].
      rewrite IH. destruct (run M s1 evs1) as [[s2 l2]|x]; cbn [bind]; [|reflexivity].
      destruct (run M s2 evs2) as [[s3 l3]|x]; cbn [bind]; [|reflexivity].
      rewrite Rplus_assoc. reflexivity.
  Qed.

  Lemma run_snoc s evs e s1 l1 s2 l2 :
    run M s evs = Ok (s1, l1) ->
    m_update M s1 (ev_sym e) (ev_hist e) (ev_wt e) = Ok (s2, l2) ->
    run M s (evs ++ [e]) = Ok (s2, l1 + l2).
  Proof.
    intros H1 H2. rewrite run_app, H1. cbn [bind run]. rewrite H2. cbn [bind].
    rewrite Rplus_0_r. reflexivity.
  Qed.

  Lemma seq_prob_run s evs s' l : run M s evs = Ok (s', l) -> seq_prob M s evs = exp l.
  Proof.
    revert s s' l; induction evs as [|e evs IH]; intros s s' l; cbn [run seq_prob].
    - intros H; injection H as <- <-. rewrite exp_0; reflexivity.
    - destruct (m_update M s (ev_sym e) (ev_hist e) (ev_wt e)) as [[s1 l1]|x]; cbn [bind]; [|discriminate].
      destruct (run M s1 evs) as [[s2 l2]|x] eqn:E; cbn [bind]; [|discriminate].
      intros H; injection H as <- <-. rewrite (IH _ _ _ E), exp_plus. reflexivity.
  Qed.

  Lemma seq_prob_run_app s evs1 evs2 s' l :
    run M s evs1 = Ok (s', l) -> seq_prob M s (evs1 ++ evs2) = exp l * seq_prob M s' evs2.
  Proof.
    revert s s' l; induction evs1 as [|e evs IH]; intros s s' l; cbn [run seq_prob app].
    - intros H; injection H as <- <-. rewrite exp_0; lra.
    - destruct (m_update M s (ev_sym e) (ev_hist e) (ev_wt e)) as [[s1 l1]|x]; cbn [bind]; [|discriminate].
      destruct (run M s1 evs) as [[s2 l2]|x] eqn:E; cbn [bind]; [|discriminate].
      intros H; injection H as <- <-. rewrite (IH _ _ _ E), exp_plus. lra.
  Qed.

  Context (A : list Z) (okh : list Z -> Prop) (okw : R -> Prop) (Inv : S -> Prop).
  Hypothesis HS : steps M A okh okw Inv.

  Lemma steps_run s evs :
    Inv s -> Forall (ok_event A okh okw) evs ->
    exists s' l, run M s evs = Ok (s', l) /\ Inv s'.
  Proof.
    revert s; induction evs as [|e evs IH]; intros s Hs Hev; cbn [run].
    - eauto.
    - inversion Hev as [|x y (Ha & Hh & Hw) Hev']; subst.
      destruct (HS s _ _ _ Hs Ha Hh Hw) as (s1 & l & Hu & _ & H1).
      rewrite Hu. cbn [bind]. destruct (IH s1 H1 Hev') as (s2 & l2 & Hr & H2).
      rewrite Hr. cbn [bind]. eauto.
  Qed.

  Lemma steps_seq_prob_pos s evs :
    Inv s -> Forall (ok_event A okh okw) evs -> 0 < seq_prob M s evs.
  Proof.
    intros Hs Hev. destruct (steps_run s evs Hs Hev) as (s' & l & Hr & _).
    rewrite (seq_prob_run _ _ _ _ Hr). apply exp_pos.
  Qed.

  Lemma steps_pred_pos s a h w : Inv s -> In a A -> okh h -> okw w -> 0 < pred_prob M s a h.
  Proof.
    intros Hs Ha Hh Hw. destruct (HS s a h w Hs Ha Hh Hw) as (s' & l & _ & Hp & _).
    unfold pred_prob. rewrite Hp. apply exp_pos.
  Qed.

End facts.

Section lawful_facts.
  Context {S : Type} (M : model S).
  Context (A : list Z) (okh : list Z -> Prop) (okw : R -> Prop) (Inv : S -> Prop).
  Hypothesis HL : lawful M A okh okw Inv.

  Lemma lawful_run s evs :
    Inv s -> Forall (ok_event A okh okw) evs ->
    exists s' l, run M s evs = Ok (s', l) /\ Inv s'.
  Proof. apply steps_run. apply HL. Qed.

  Lemma lawful_seq_prob_pos s evs :
    Inv s -> Forall (ok_event A okh okw) evs -> 0 < seq_prob M s evs.
  Proof. apply steps_seq_prob_pos. apply HL. Qed.

  (** The update values, too, sum to one over the alphabet. *)
  Lemma lawful_update_norm s h w :
    Inv s -> okh h -> okw w ->
    Rsum (map (fun a => seq_prob M s [Event a h w]) A) = 1.
  Proof.
    intros Hs Hh Hw. rewrite <- (law_norm _ _ _ _ _ HL s h Hs Hh).
    apply Rsum_map_ext. intros a Ha. cbn [seq_prob ev_sym ev_hist ev_wt].
    destruct (law_step _ _ _ _ _ HL s a h w Hs Ha Hh Hw) as (s' & l & Hu & Hp & _).
    rewrite Hu. unfold pred_prob. rewrite Hp. lra.
  Qed.
End lawful_facts.
