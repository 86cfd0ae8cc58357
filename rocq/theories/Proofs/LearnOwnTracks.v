(** PTW and FMN of ctw.py, and PTW of learners.py, track sources that change. *)
From Coq Require Import Lra Lia Permutation.
From Verif Require Import Model.KT Model.CtwPTW Model.CtwFMN Model.LearnersPTW Model.Stores Spec.LearnSpec Spec.CtwSpec Spec.CtwFMNSpec Spec.Equiv Spec.PTWSpec.
From Verif Require Import Proofs.RealFacts Proofs.PyFacts Proofs.ProbFacts Proofs.KTFacts Proofs.SADFacts Proofs.PTWFacts Proofs.PTWTop Proofs.PTWMixture Proofs.PTWProps Proofs.StoreFacts.
From Verif Require Import Proofs.FMNFacts Proofs.FMNProps Proofs.CtwPTWFacts Proofs.CtwFMNProps Proofs.LearnersPTWFacts Proofs.SourceFacts Proofs.SourceProps Proofs.CombinedFacts Proofs.LearnersKTFacts.
From Verif Require Import Proofs.CtwKTFacts Proofs.CtwSADFacts Proofs.LearnEst Proofs.LearnTop.
From Verif Require Proofs.KTRedundancy Proofs.SADRedundancy Proofs.ACOverhead.
Open Scope R_scope.
Notation no_hist := (fun h : list Z => h = []).

Section tracks.
  Context {St : Type} (M : model St) (A : list Z) (okw : R -> Prop) (Inv : St -> Prop).
  Hypothesis HS : steps M A no_hist okw Inv.
  Variable fresh : St.
  Hypothesis Hfresh : Inv fresh.
  Context (src : (event -> R) -> Prop) (price : nat -> R) (ok : event -> Prop).
  Hypothesis Hok : forall e, ok e -> ok_event A no_hist okw e.
  Hypothesis Hlearn : learns M fresh ok src price.
  Hypothesis Hmono : forall a b, (a <= b)%nat -> price a <= price b.
  Hypothesis Hprice : forall n, 0 <= price n.
  Variable q : nat -> event -> R.
  Hypothesis Hq : forall t e, 0 <= q t e.
  Hypothesis Hsrc : forall t, src (q t).
  Variable cps : list nat.
  Hypothesis Hch : changes_only q cps.
  Variables (H : nat) (evs : list event).
  Hypothesis Hev : Forall ok evs.
  Hypothesis Hlen : (length evs <= 2 ^ H)%nat.
  Hypothesis Hpos : 0 < source_prob q 0 evs.
  Let n := length evs.
  Let k := length cps.
  Let price1 := INR (1 + k * H) * price n + INR (1 + 2 * k * H) * ln 2.

  Lemma any_times : Forall (fun c => c mod 2 ^ 0 = 0)%nat cps.
  Proof. apply Forall_forall. intros c _. apply Nat.mod_1_r. Qed.
  Lemma evs_ok : Forall (ok_event A no_hist okw) evs.
  Proof. eapply Forall_impl; [|exact Hev]. exact Hok. Qed.

  Lemma good_partition : exists p, is_part H p /\ (pcost H p <= 1 + 2 * k * H)%nat /\ (length (segments 0 H 0 p) <= 1 + k * H)%nat /\
    - ln (part_prob M (fun _ => fresh) 0 H 0 p evs) <= - ln (source_prob q 0 evs) + INR (1 + k * H) * price n.
  Proof. exact (source_partition M A no_hist okw Inv HS fresh Hfresh src price ok Hok Hlearn Hmono Hprice q Hq Hsrc cps Hch 0 any_times H evs Hev Hlen Hpos). Qed.

  Lemma recursion_tracks l : exp l = ptw_prob M (fun _ => fresh) 0 H 0 evs -> - l <= - ln (source_prob q 0 evs) + price1.
  Proof.
    intros E. destruct good_partition as (p & Hp & Hc & _ & Hl).
    pose proof (ptw_regret M (fun _ => fresh) 0 A no_hist okw Inv HS (fun _ => Hfresh) H p 0 evs Hp evs_ok) as G.
    rewrite <- E, ln_exp in G. apply le_INR in Hc. pose proof ACOverhead.ln2_pos as H2. pose proof (Rmult_le_compat_r _ _ _ (Rlt_le _ _ H2) Hc). unfold price1. lra.
  Qed.

  Lemma segments_total p : is_part H p ->
    let sgs := filter (fun sg : nat * nat => (fst sg <? length evs)%nat) (segments 0 H 0 p) in
    Rsum (map (fun sg => - ln (seq_prob M fresh (firstn (snd sg) (skipn (fst sg) evs)))) sgs) = - ln (part_prob M (fun _ => fresh) 0 H 0 p evs).
  Proof.
    intros Hp sgs. set (f := fun sg : nat * nat => - ln (seq_prob M fresh (firstn (snd sg) (skipn (fst sg) evs)))). unfold sgs. rewrite Rsum_drop.
    - rewrite part_prob_segments by (assumption || exact Hlen).
      rewrite (Rprod_map_ext _ (fun sg => seq_prob M fresh (firstn (snd sg) (skipn (fst sg) evs)))).
      2:{ intros sg _. rewrite Nat.sub_0_r. reflexivity. }
      destruct (ln_Rprod (fun sg => seq_prob M fresh (firstn (snd sg) (skipn (fst sg) evs))) (segments 0 H 0 p)) as (_ & ->).
      + intros sg _. apply (steps_seq_prob_pos M A no_hist okw Inv HS); [exact Hfresh|]. apply Forall_firstn, Forall_skipn, evs_ok.
      + unfold f. replace (- Rsum (map (fun sg => ln (seq_prob M fresh (firstn (snd sg) (skipn (fst sg) evs)))) (segments 0 H 0 p)))
          with (-1 * Rsum (map (fun sg => ln (seq_prob M fresh (firstn (snd sg) (skipn (fst sg) evs)))) (segments 0 H 0 p))) by lra.
        rewrite <- Rsum_scal_l. apply Rsum_map_ext. intros sg _. lra.
    - intros sg _ Hf. apply Nat.ltb_ge in Hf. unfold f. rewrite skipn_all2 by exact Hf. rewrite firstn_nil.
      cbn [seq_prob]. rewrite ln_1. lra.
  Qed.
End tracks.

Section q.
  Context {St : Type} (Q : probseq St) (A : list Z) (okw : R -> Prop) (Inv : St -> Prop).
  Hypothesis HS : steps (q_model Q) A no_hist okw Inv.
  Variable fresh : St.
  Hypothesis Hfresh : Inv fresh.
  Context (src : (event -> R) -> Prop) (price : nat -> R) (ok : event -> Prop).
  Hypothesis Hok : forall e, ok e -> ok_event A no_hist okw e.
  Hypothesis Hlearn : learns (q_model Q) fresh ok src price.
  Hypothesis Hmono : forall a b, (a <= b)%nat -> price a <= price b.
  Hypothesis Hprice : forall n, 0 <= price n.
  Variable q : nat -> event -> R.
  Hypothesis Hq : forall t e, 0 <= q t e.
  Hypothesis Hsrc : forall t, src (q t).
  Variable cps : list nat.
  Hypothesis Hch : changes_only q cps.
  Variables (H : nat) (evs : list event).
  Hypothesis Hev : Forall ok evs.
  Hypothesis Hlen : (length evs <= 2 ^ H)%nat.
  Hypothesis Hpos : 0 < source_prob q 0 evs.

  Theorem qptw_tracks : (forall s a h w s' l, m_update (q_model Q) s a h w = Ok (s', l) -> q_lp Q s' = q_lp Q s + l) -> q_lp Q fresh = 0 ->
    let n := length evs in let k := length cps in
    exists s l, run (QPTW_model Q fresh) (qptw_init fresh H) evs = Ok (s, l) /\
      - l <= - ln (source_prob q 0 evs) + (INR (1 + k * H) * price n + INR (1 + 2 * k * H) * ln 2).
  Proof.
    intros HQ Hlp n k. destruct (qptw_recursion Q HQ fresh Hlp A okw Inv HS Hfresh H evs (evs_ok A okw ok Hok evs Hev) Hlen) as (s & l & E & El).
    exists s, l. split; [exact E|].
    exact (recursion_tracks (q_model Q) A okw Inv HS fresh Hfresh src price ok Hok Hlearn Hmono Hprice q Hq Hsrc cps Hch H evs Hev Hlen Hpos l El).
  Qed.

  Variables (reset : St -> St) (order : nat -> list St -> list St).
  Hypothesis Hord : forall t l, Permutation (order t l) l.
  Hypothesis HR : running_total Q reset.
  Hypothesis Hri : forall s, Inv s -> Inv (reset s).
  Let C := LogStore_class St.

  Lemma q_retains_first s0 b : qfmn_init reset C order H fresh = Ok s0 -> (b <= length evs)%nat ->
    In fresh (qretained Q reset C order s0 evs b) /\ length (qretained Q reset C order s0 evs b) = (Nat.log2 (1 + b) + 1)%nat.
  Proof.
    intros H0 Hb. pose proof (Forall_firstn _ b _ (evs_ok A okw ok Hok evs Hev)) as Hu1.
    assert (Hl1 : (length (firstn b evs) <= 2 ^ H)%nat) by (rewrite firstn_length; lia).
    destruct (qfmn_total Q reset C _ order Hord A okw Inv HR HS Hri (logstore_law St) H fresh (firstn b evs) Hfresh Hu1 Hl1) as (s0' & s & l & H0' & Hr).
    rewrite H0 in H0'. injection H0' as <-. unfold qretained. rewrite Hr.
    destruct (qfmn_logstore_retains Q reset order A okw Inv H fresh (firstn b evs) s0 s l Hord HR HS Hri Hfresh Hu1 Hl1 H0 Hr) as (Hl & Hnth).
    rewrite firstn_length, Nat.min_l in * by exact Hb. split; [|exact Hl]. eapply nth_error_In. exact Hnth.
  Qed.

  Theorem qfmn_tracks : let n := length evs in let k := length cps in
    exists s0 s l, qfmn_init reset C order H fresh = Ok s0 /\ run (QFMN_model Q reset C order) s0 evs = Ok (s, l) /\
      - l <= - ln (source_prob q 0 evs) + (INR (1 + k * H) * (price n + ln (INR (Nat.log2 (1 + n) + 1))) + INR (1 + 2 * k * H) * ln 2).
  Proof.
    intros n k. pose proof (evs_ok A okw ok Hok evs Hev) as Hevs.
    destruct (good_partition (q_model Q) A okw Inv HS fresh Hfresh src price ok Hok Hlearn Hmono Hprice q Hq Hsrc cps Hch H evs Hev Hlen Hpos) as (p & Hp & Hcost & Hsegs & Hl).
    destruct (qfmn_total Q reset C _ order Hord A okw Inv HR HS Hri (logstore_law St) H fresh evs Hfresh Hevs Hlen) as (s0 & s & l & H0 & Hr).
    exists s0, s, l. split; [exact H0|]. split; [exact Hr|].
    pose proof (segments_total (q_model Q) A okw Inv HS fresh Hfresh ok Hok H evs Hev Hlen p Hp) as Hpp. cbv zeta in Hpp.
    pose proof (qfmn_competes Q reset C _ order Hord A okw Inv HR HS Hri (logstore_law St) H fresh evs s0 s l p (fun _ => fresh) Hfresh Hevs Hlen H0 Hr Hp) as Hreg.
    cbv zeta in Hreg. set (sgs := filter (fun sg : nat * nat => (fst sg <? length evs)%nat) (segments 0 H 0 p)) in *.
    assert (Hin : forall sg, In sg sgs -> (fst sg <= length evs)%nat).
    { intros sg Hi. apply filter_In in Hi as [_ Hi]. apply Nat.ltb_lt in Hi. lia. }
    specialize (Hreg (fun sg Hi => proj1 (q_retains_first s0 (fst sg) H0 (Hin sg Hi)))). cbv beta in Hreg.
    set (L := ln (INR (Nat.log2 (1 + n) + 1))).
    set (f := fun sg : nat * nat => - ln (seq_prob (q_model Q) fresh (firstn (snd sg) (skipn (fst sg) evs)))) in Hpp.
    assert (HL : 0 <= L).
    { unfold L. rewrite <- ln_1. apply KTRedundancy.ln_le; [lra|]. change 1 with (INR 1). apply le_INR. lia. }
    assert (Hsum : Rsum (map (fun sg => f sg + ln (INR (length (qretained Q reset C order s0 evs (fst sg))))) sgs)
                   <= Rsum (map f sgs) + INR (length sgs) * L).
    { rewrite <- (Rsum_const L sgs), <- Rsum_plus. apply Rsum_le. intros sg Hi.
      destruct (q_retains_first s0 (fst sg) H0 (Hin sg Hi)) as (_ & ->). apply Rplus_le_compat_l. unfold L.
      apply KTRedundancy.ln_le; [apply lt_0_INR; lia|]. apply le_INR. apply Nat.add_le_mono_r. apply Nat.log2_le_mono.
      apply Nat.add_le_mono_l. exact (Hin sg Hi). }
    assert (Hns : INR (length sgs) <= INR (1 + k * H)).
    { apply le_INR. unfold sgs. pose proof (filter_length_le' (fun sg : nat * nat => (fst sg <? length evs)%nat) (segments 0 H 0 p)). unfold k. lia. }
    apply le_INR in Hcost. pose proof ACOverhead.ln2_pos as H2. pose proof (Rmult_le_compat_r _ _ _ (Rlt_le _ _ H2) Hcost) as Hc2.
    pose proof (Rmult_le_compat_r _ _ _ HL Hns) as Hc3. fold n k in Hl, Hc2. rewrite Hpp in Hsum. unfold f in Hsum. lra.
  Qed.
End q.

Section learners.
  Context {St : Type} (M : model St) (A : list Z) (Inv : St -> Prop).
  Hypothesis HS : steps M A no_hist (fun w => w = 1) Inv.
  Variable fresh : St.
  Hypothesis Hfresh : Inv fresh.
  Context (src : (event -> R) -> Prop) (price : nat -> R) (ok : event -> Prop).
  Hypothesis Hok : forall e, ok e -> ok_event A no_hist (fun w => w = 1) e.
  Hypothesis Hlearn : learns M fresh ok src price.
  Hypothesis Hmono : forall a b, (a <= b)%nat -> price a <= price b.
  Hypothesis Hprice : forall n, 0 <= price n.

  Theorem lptw_tracks q : (forall t e, 0 <= q t e) -> (forall t, src (q t)) -> forall cps, changes_only q cps ->
    forall D evs, Forall ok evs -> (length evs <= 2 ^ D)%nat -> 0 < source_prob q 0 evs ->
    let n := length evs in let k := length cps in
    exists s l, run (LPTW_model M fresh) (lptw_init fresh D) evs = Ok (s, l) /\
      - l <= - ln (source_prob q 0 evs) + (INR (1 + k * D) * price n + INR (1 + 2 * k * D) * ln 2).
  Proof.
    intros Hq Hsrc cps Hch D evs Hev Hlen Hpos n k.
    destruct (lptw_recursion M fresh A Inv HS Hfresh D evs (evs_ok A _ ok Hok evs Hev) Hlen) as (s & l & E & El & _).
    exists s, l. split; [exact E|].
    exact (recursion_tracks M A _ Inv HS fresh Hfresh src price ok Hok Hlearn Hmono Hprice q Hq Hsrc cps Hch D evs Hev Hlen Hpos l El).
  Qed.
End learners.

(** ** The estimators of these files *)
Lemma units_of evs A : Forall (fun e => symbol_of A e /\ ev_hist e = []) evs -> evs = unit_events (map ev_sym evs).
Proof.
  induction 1 as [|e evs [[Hi Hw] Hh] _ IH]; [reflexivity|]. unfold unit_events in *. cbn [map]. rewrite <- IH. f_equal.
  destruct e as [a h w]. cbn in *. subst. reflexivity.
Qed.
Lemma same_learns_units {S1 S2} (QM : model S1) q0 (M : model S2) s0 (okv : event -> Prop) A price :
  same_values QM q0 M s0 okv -> (forall x, In x A -> okv (Event x [] 1)) ->
  (forall xs, Forall (fun x => In x A) xs -> exists s l, run M s0 (unit_events xs) = Ok (s, l)) ->
  learns M s0 (symbol_of A) (memoryless A) price ->
  learns QM q0 (fun e => symbol_of A e /\ ev_hist e = []) (memoryless A) price.
Proof.
  intros HV Hokv HM HL r evs Hr Hev Hpos.
  assert (Hs : Forall (symbol_of A) evs) by (eapply Forall_impl; [|exact Hev]; intros e [He _]; exact He).
  pose proof (HL r evs Hr Hs Hpos) as G.
  assert (E : seq_prob QM q0 evs = seq_prob M s0 evs); [|rewrite E; exact G].
  destruct evs as [|e0 evs0] eqn:Ee; [reflexivity|]. rewrite <- Ee in *. rewrite (units_of evs A Hev).
  assert (Hx : Forall (fun x => In x A) (map ev_sym evs)) by (apply Forall_map; eapply Forall_impl; [|exact Hs]; intros e [He _]; exact He).
  assert (Hx0 : In (ev_sym e0) A) by (rewrite Ee in Hs; inversion Hs as [|? ? [Hi _]]; exact Hi).
  set (xs := map ev_sym evs) in *. destruct (HM xs Hx) as (s & l & Er).
  assert (HF : Forall okv (unit_events xs)) by (unfold unit_events; apply Forall_map; eapply Forall_impl; [|exact Hx]; intros y Hy; apply Hokv, Hy).
  destruct (HV (unit_events xs) (Event (ev_sym e0) [] 1) HF (Hokv _ Hx0)) as [H1 _]. rewrite Er in H1. cbn [bind] in H1.
  destruct (run QM q0 (unit_events xs)) as [[s' l']|y] eqn:E1; cbn [bind] in H1; [|discriminate]. injection H1 as ->.
  rewrite (seq_prob_run _ _ _ _ _ E1), (seq_prob_run _ _ _ _ _ Er). reflexivity.
Qed.

Lemma qkt_learns_plain A : NoDup A -> (2 <= length A)%nat -> learns (q_model QKT_class) (qkt_init A) (fun e => symbol_of A e /\ ev_hist e = []) (memoryless A) (learn_any (length A)).
Proof.
  intros HA Hk. pose proof (A_ne A Hk) as Hne.
  apply (same_learns_units _ _ KT_model (kt_init A) (fun e => 0 <= ev_wt e)); [apply qkt_same; assumption|intros; cbn; lra| |apply kt_learns; assumption].
  intros xs Hx. exact (proj1 (SADRedundancy.any_runs A xs HA Hne Hx)).
Qed.
Lemma lkt_learns_plain A : NoDup A -> (2 <= length A)%nat -> learns LKT_model (lkt_init A) (fun e => symbol_of A e /\ ev_hist e = []) (memoryless A) (learn_any (length A)).
Proof.
  intros HA Hk. pose proof (A_ne A Hk) as Hne.
  apply (same_learns_units _ _ KT_model (kt_init A) (fun e => ev_wt e = 1)); [apply lkt_same; assumption|reflexivity| |apply kt_learns; assumption].
  intros xs Hx. exact (proj1 (SADRedundancy.any_runs A xs HA Hne Hx)).
Qed.
Lemma qsad_learns_plain A : NoDup A -> A <> [] ->
  learns (q_model QSAD_class) (qsad_init (Z.of_nat (length A))) (fun e => symbol_of A e /\ ev_hist e = []) (memoryless A) (sad_learn (length A)).
Proof.
  intros HA Hne.
  apply (same_learns_units _ _ SAD_model (sad_init (Z.of_nat (length A))) (fun _ => True)); [apply qsad_same|trivial| |apply sad_learns; assumption].
  intros xs Hx. exact (proj2 (SADRedundancy.any_runs A xs HA Hne Hx)).
Qed.
