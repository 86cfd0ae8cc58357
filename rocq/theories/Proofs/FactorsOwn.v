(** The class Factorized of ctw.py over its CTW learns trees that take turns. *)
From Coq Require Import Lra Lia.
From Verif Require Import Model.KT Model.CTW Model.CtwCTW Model.CtwFMN Model.CtwFactorize Spec.FactorsSpec Spec.CtwFactorizeSpec Spec.CTWSpec Spec.CtwFMNSpec.
From Verif Require Import Proofs.RealFacts Proofs.PyFacts Proofs.ProbFacts Proofs.KTFacts Proofs.SADFacts Proofs.CTWProps.
From Verif Require Import Proofs.CtwKTFacts Proofs.CtwSADFacts Proofs.LearnEst Proofs.LearnTop Proofs.LearnOwn Proofs.LearnOwnTracks Proofs.LearnOwnTop Proofs.FactorsTop.
From Verif Require Proofs.CtwFactorizeTop.
Open Scope R_scope.

Lemma after_units seq : forall h, events_after h (map (fun a => (a, 1)) seq) = events_from h seq 1.
Proof. induction seq as [|a seq IH]; intros h; cbn; [reflexivity|]. f_equal. apply IH. Qed.

Section own.
  Context {St : Type} (Q : probseq St).
  Hypothesis HQ : forall s a h w s' l, m_update (q_model Q) s a h w = Ok (s', l) -> q_lp Q s' = q_lp Q s + l.
  Variable fresh : St.
  Hypothesis Hlp : q_lp Q fresh = 0.
  Let M := without_history (q_model Q).
  Context (A : list Z) (okw : R -> Prop) (Inv : St -> Prop).
  Hypothesis HS : steps (q_model Q) A (fun h => h = []) okw Inv.
  Hypothesis Hfresh : Inv fresh.
  Hypothesis Hw1 : okw 1.
  Context (src : (event -> R) -> Prop) (price : nat -> R).
  Hypothesis Hlearn : learns M fresh (symbol_of A) src price.
  Hypothesis Hmono : forall a b, (a <= b)%nat -> price a <= price b.
  Hypothesis Hprice : forall n, 0 <= price n.
  Hypothesis Hsrc0 : forall r e, src r -> 0 <= r e.
  Variables (K : list Z) (D n : nat).
  Hypothesis HK : NoDup K.
  Hypothesis H0 : In 0%Z K.
  Hypothesis HAK : incl A K.
  Hypothesis HD : (0 < D)%nat.
  Hypothesis Hn : (0 < n)%nat.

  Lemma steps_without : steps M A any_hist okw Inv.
  Proof. intros s a h w Hs Ha _ Hw. exact (HS s a [] w Hs Ha eq_refl Hw). Qed.

  Theorem factorized_learns (L C : nat -> nat) r seq : (forall i, (i < n)%nat -> tree_of src K D (L i) (C i) (r i)) -> incl seq A ->
    let evs := events_from [] seq 1 in 0 < Rprod (map (in_turn n r) evs) ->
    exists s rs, hexec (fz_update (ctw_factor_update Q fresh (mkcontext (Z.of_nat D))) (Z.of_nat n))
                       (fz_log_predict (ctw_factor_predict Q fresh (mkcontext (Z.of_nat D))) (Z.of_nat n))
                       (fz_init (qobj_init fresh (Z.of_nat D)) (Z.of_nat n)) (updates (map (fun a => (a, 1)) seq)) = Ok (s, rs) /\
      - Rsum rs <= - ln (Rprod (map (in_turn n r) evs)) + Rsum (map (fun i => INR (L i) * price (share n i evs) + INR (C i) * ln 2) (List.seq 0 n)).
  Proof.
    intros Hr Hseq evs Hpos. assert (NB : false = true -> incl K [0; 1]%Z) by discriminate.
    destruct (CtwFactorizeTop.fz_ctw Q HQ fresh Hlp D n HD Hn A okw Inv K HS Hfresh HK H0 HAK Hw1 (map (fun a => (a, 1)) seq)) as (s & rs & E & _ & _ & Hp).
    { apply Forall_map, Forall_forall. intros a Ha. split; [exact (Hseq a Ha)|exact Hw1]. }
    exists s, rs. split; [exact E|]. rewrite after_units in Hp. fold evs M in Hp.
    assert (Hev : Forall (fun e => symbol_of A e /\ incl (ev_hist e) K) evs).
    { pose proof (own_events_all A K [seq] ltac:(constructor; [exact Hseq|constructor]) HAK) as G. cbn [flat_map] in G. rewrite app_nil_r in G. exact G. }
    assert (Hnn : n <> 0%nat) by lia. rewrite (in_turn_split n r evs Hnn) in *.
    assert (Hi0 : forall i, In i (List.seq 0 n) -> 0 <= Rprod (map (r i) (of_turn n i evs))).
    { intros i Hi. apply in_seq in Hi. destruct (Hr i ltac:(lia)) as (p & tr & _ & _ & _ & Hps & Er).
      induction (of_turn n i evs) as [|e l IH]; cbn [map]; rewrite ?Rprod_cons, ?Rprod_nil; [lra|].
      apply Rmult_le_pos; [|exact IH]. rewrite Er. apply Hsrc0, Hps. }
    pose proof (Rprod_pos_each _ _ Hi0 Hpos) as Hip. rewrite (ln_Rprod _ _ Hip).
    assert (HC : forall i, In i (List.seq 0 n) -> 0 < ctw_prob M fresh (recent D) K D [] (my_events n i evs) /\
      - ln (ctw_prob M fresh (recent D) K D [] (my_events n i evs)) <=
      - ln (Rprod (map (r i) (of_turn n i evs))) + (INR (L i) * price (share n i evs) + INR (C i) * ln 2)).
    { intros i Hi. pose proof (Hip i Hi) as Hpi. apply in_seq in Hi. change (my_events n i evs) with (of_turn n i evs).
      assert (Hei : Forall (fun e => symbol_of A e /\ incl (ev_hist e) K) (of_turn n i evs)).
      { apply Forall_forall. intros e He. apply filter_In in He as [He _]. rewrite Forall_forall in Hev. exact (Hev e He). }
      assert (Hok : forall e, symbol_of A e -> ok_event A any_hist okw e).
      { intros e [G1 G2]. split; [exact G1|]. split; [exact I|]. rewrite G2. exact Hw1. }
      destruct (ctw_recursion M fresh false A any_hist okw Inv K D steps_without Hfresh HK H0 NB HD (of_turn n i evs)) as (c & l & Hrun & _ & Hl).
      { eapply Forall_impl; [|exact Hei]. intros e [G1 G2]. split; [exact (Hok e G1)|exact G2]. }
      pose proof (ctw_of_learner M A any_hist okw Inv steps_without fresh Hfresh src price (symbol_of A) Hok Hlearn Hmono Hprice Hsrc0
        false K D HK H0 NB HD (L i) (C i) (r i) (of_turn n i evs) (Hr i ltac:(lia)) Hei Hpi) as G.
      rewrite (seq_prob_run _ _ _ _ _ Hrun) in G. rewrite <- Hl. split; [apply exp_pos|]. unfold share. exact G. }
    assert (El : Rsum rs = Rsum (map (fun i => ln (ctw_prob M fresh (recent D) K D [] (my_events n i evs))) (List.seq 0 n))).
    { rewrite <- (ln_exp (Rsum rs)), Hp. apply ln_Rprod. intros i Hi. apply (HC i Hi). }
    rewrite El. set (f := fun i => ln (ctw_prob M fresh (recent D) K D [] (my_events n i evs))) in *.
    set (g := fun i => ln (Rprod (map (r i) (of_turn n i evs)))). set (b := fun i => INR (L i) * price (share n i evs) + INR (C i) * ln 2).
    assert (Hle : Rsum (map (fun i => -1 * f i) (List.seq 0 n)) <= Rsum (map (fun i => -1 * g i + b i) (List.seq 0 n))).
    { apply Rsum_le. intros i Hi. destruct (HC i Hi) as [_ G]. unfold f, g, b. lra. }
    rewrite Rsum_plus, !Rsum_scal_l in Hle. lra.
  Qed.
End own.

Lemma factorized_kt A : NoDup A -> (2 <= length A)%nat -> forall K D n, NoDup K -> In 0%Z K -> incl A K -> (0 < D)%nat -> (0 < n)%nat ->
  forall (L C : nat -> nat) r seq, (forall i, (i < n)%nat -> tree_of (memoryless A) K D (L i) (C i) (r i)) -> incl seq A ->
  let evs := events_from [] seq 1 in 0 < Rprod (map (in_turn n r) evs) ->
  let Q := QKT_class in let fresh := qkt_init A in
  exists s rs, hexec (fz_update (ctw_factor_update Q fresh (mkcontext (Z.of_nat D))) (Z.of_nat n))
                     (fz_log_predict (ctw_factor_predict Q fresh (mkcontext (Z.of_nat D))) (Z.of_nat n))
                     (fz_init (qobj_init fresh (Z.of_nat D)) (Z.of_nat n)) (updates (map (fun a => (a, 1)) seq)) = Ok (s, rs) /\
    - Rsum rs <= - ln (Rprod (map (in_turn n r) evs))
                 + Rsum (map (fun i => INR (L i) * learn_any (length A) (share n i evs) + INR (C i) * ln 2) (List.seq 0 n)).
Proof.
  intros HA Hk K D n HK H0 HAK HD Hn.
  exact (factorized_learns QKT_class qkt_law (qkt_init A) eq_refl A nonneg (qkt_inv A) (qkt_steps A _) (qkt_inv_init A HA (A_ne A Hk)) nonneg_1
    (memoryless A) (learn_any (length A)) (qkt_learns A HA Hk) (learn_any_mono A Hk) (learn_any_nonneg A Hk) (memoryless_nonneg A) K D n HK H0 HAK HD Hn).
Qed.

Lemma factorized_sad A : NoDup A -> A <> [] -> forall K D n, NoDup K -> In 0%Z K -> incl A K -> (0 < D)%nat -> (0 < n)%nat ->
  forall (L C : nat -> nat) r seq, (forall i, (i < n)%nat -> tree_of (memoryless A) K D (L i) (C i) (r i)) -> incl seq A ->
  let evs := events_from [] seq 1 in 0 < Rprod (map (in_turn n r) evs) ->
  let Q := QSAD_class in let fresh := qsad_init (Z.of_nat (length A)) in
  exists s rs, hexec (fz_update (ctw_factor_update Q fresh (mkcontext (Z.of_nat D))) (Z.of_nat n))
                     (fz_log_predict (ctw_factor_predict Q fresh (mkcontext (Z.of_nat D))) (Z.of_nat n))
                     (fz_init (qobj_init fresh (Z.of_nat D)) (Z.of_nat n)) (updates (map (fun a => (a, 1)) seq)) = Ok (s, rs) /\
    - Rsum rs <= - ln (Rprod (map (in_turn n r) evs))
                 + Rsum (map (fun i => INR (L i) * sad_learn (length A) (share n i evs) + INR (C i) * ln 2) (List.seq 0 n)).
Proof.
  intros HA Hne K D n HK H0 HAK HD Hn.
  assert (H1 : positive 1) by (unfold positive; lra).
  exact (factorized_learns QSAD_class (rt_adds _ _ qsad_rt) (qsad_init (Z.of_nat (length A))) eq_refl A positive (qsad_inv A) (qsad_steps A _) (qsad_inv_init A HA) H1
    (memoryless A) (sad_learn (length A)) (qsad_learns A HA Hne) (sad_learn_mono A HA Hne) (sad_learn_nonneg A HA Hne) (memoryless_nonneg A) K D n HK H0 HAK HD Hn).
Qed.
