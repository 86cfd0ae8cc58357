(** KT and SAD over any alphabet learn the memoryless sources (from the bounds of C99). *)
From Coq Require Import Lra Lia.
From Verif Require Import Model.KT Spec.LearnSpec.
From Verif Require Spec.MemorylessSpec Proofs.KTAny Proofs.SADRedundancy Proofs.TypesFacts.
From Verif Require Import Proofs.RealFacts Proofs.PyFacts Proofs.ProbFacts Proofs.KTFacts Proofs.SADFacts Proofs.KTRedundancy.

Open Scope R_scope.

Lemma source_prod theta xs : MemorylessSpec.source_prob theta xs = Rprod (map theta xs).
Proof. induction xs as [|x xs IH]; [reflexivity|]. cbn [map]. rewrite Rprod_cons, <- IH. reflexivity. Qed.
Lemma distribution_source A theta : distribution A theta -> MemorylessSpec.is_source A theta.
Proof. intros [H1 H2]. split; [intros a _; apply H1|lra]. Qed.
Lemma used_most A xs : NoDup A -> Forall (fun x => In x A) xs -> (MemorylessSpec.used xs <= length A)%nat.
Proof.
  intros HA Hx. unfold MemorylessSpec.used. apply NoDup_incl_length; [apply NoDup_nodup|]. intros x H. apply nodup_In in H.
  exact (proj1 (Forall_forall _ _) Hx x H).
Qed.

(** A model that ignores the history learns if it learns from the symbols. *)
Lemma learns_symbols {St} (M : model St) fresh A price :
  (forall s a h1 h2 w, m_update M s a h1 w = m_update M s a h2 w) ->
  (forall theta xs, distribution A theta -> Forall (fun x => In x A) xs -> 0 < Rprod (map theta xs) ->
     - ln (seq_prob M fresh (unit_events xs)) <= - ln (Rprod (map theta xs)) + price (length xs)) ->
  learns M fresh (symbol_of A) (memoryless A) price.
Proof.
  intros Hh HP r evs (theta & Hd & E) Hev Hpos.
  assert (Er : Rprod (map r evs) = Rprod (map theta (map ev_sym evs))) by (rewrite map_map; apply Rprod_map_ext; intros e _; apply E).
  assert (Eu : forall s, seq_prob M s evs = seq_prob M s (unit_events (map ev_sym evs))).
  { clear -Hh Hev. induction evs as [|e evs IH]; intros s; [reflexivity|]. inversion Hev as [|x y [Hb Hw] H']; subst.
    unfold unit_events. cbn [map seq_prob ev_sym ev_hist ev_wt]. rewrite Hw, (Hh s _ _ [] 1).
    destruct (m_update M s (ev_sym e) [] 1) as [[s1 l]|x]; [|reflexivity]. rewrite (IH H' s1). reflexivity. }
  rewrite Er in *. rewrite Eu.
  assert (HA : Forall (fun x => In x A) (map ev_sym evs)) by (apply Forall_map; eapply Forall_impl; [|exact Hev]; intros e [H _]; exact H).
  pose proof (HP theta _ Hd HA Hpos) as H. rewrite map_length in H. exact H.
Qed.

Section any.
  Variable A : list Z.
  Hypothesis HA : NoDup A.
  Let k := length A.
  Hypothesis Hk : (2 <= k)%nat.

  Lemma A_ne : A <> [].
  Proof. intros E. unfold k in Hk. rewrite E in Hk. cbn in Hk. lia. Qed.
  Lemma k_pos : 2 <= INR k.
  Proof. apply (le_INR 2). exact Hk. Qed.

  Lemma learn_any_nonneg n : 0 <= learn_any k n.
  Proof.
    pose proof k_pos as HK. destruct n as [|n]; cbn [learn_any]; [lra|].
    assert (0 <= ln (INR (S n))) by (rewrite <- ln_1; apply KTRedundancy.ln_le; [lra|apply (le_INR 1); lia]).
    assert (0 <= ln (INR k)) by (rewrite <- ln_1; apply KTRedundancy.ln_le; lra).
    pose proof (Rmult_le_pos ((INR k - 1) / 2) (ln (INR (S n))) ltac:(lra) ltac:(assumption)).
    pose proof (Rmult_le_pos (INR k) (ln (INR k)) ltac:(lra) ltac:(assumption)). lra.
  Qed.
  Lemma learn_any_mono a b : (a <= b)%nat -> learn_any k a <= learn_any k b.
  Proof.
    intros H. destruct a as [|a]; [apply learn_any_nonneg|]. destruct b as [|b]; [lia|]. pose proof k_pos as HK. cbn [learn_any].
    assert (ln (INR (S a)) <= ln (INR (S b))) by (apply KTRedundancy.ln_le; [apply lt_0_INR; lia|apply le_INR; exact H]).
    pose proof (Rmult_le_compat_l ((INR k - 1) / 2) _ _ ltac:(lra) H0). lra.
  Qed.


  Theorem kt_learns : learns KT_model (kt_init A) (symbol_of A) (memoryless A) (learn_any k).
  Proof.
    apply learns_symbols; [reflexivity|]. intros theta xs Hd Hx Hpos. destruct xs as [|x0 xs0].
    { cbn [unit_events map seq_prob length learn_any]. rewrite Rprod_nil, ln_1. lra. }
    set (xs := x0 :: xs0) in *. destruct (SADRedundancy.any_runs A xs HA A_ne Hx) as [(s & l & E) _].
    rewrite <- source_prod in Hpos |- *.
    pose proof (KTAny.kt_any_redundancy A theta xs s l HA Hk Hx ltac:(discriminate) (distribution_source A theta Hd) Hpos E) as H.
    rewrite (seq_prob_run _ _ _ _ _ E), ln_exp. pose proof (used_most A xs HA Hx) as Ho. fold k in Ho, H. apply le_INR in Ho. pose proof k_pos as HK.
    pose proof (TypesFacts.used_pos xs ltac:(discriminate)) as H1. apply le_INR in H1. change (INR 1) with 1 in H1.
    change (learn_any k (length xs)) with ((INR k - 1) / 2 * ln (INR (length xs)) + INR k * ln (INR k) + / 8).
    assert (Hl : 0 <= ln (INR (length xs))) by (rewrite <- ln_1; apply KTRedundancy.ln_le; [lra|apply (le_INR 1); cbn; lia]).
    assert (Hlk : 0 <= ln (INR k)) by (rewrite <- ln_1; apply KTRedundancy.ln_le; lra).
    set (o := INR (MemorylessSpec.used xs)) in *. set (ll := ln (INR (length xs))) in *. set (lk := ln (INR k)) in *.
    assert (Hd0 : 0 <= (/ 2 - / INR k) * ll) by (apply Rmult_le_pos; [pose proof (Rinv_le_contravar 2 (INR k) ltac:(lra) HK); lra|exact Hl]).
    assert (Hm : o * ((/ 2 - / INR k) * ll + lk) <= INR k * ((/ 2 - / INR k) * ll + lk)) by (apply Rmult_le_compat_r; lra).
    replace (INR k * ((/ 2 - / INR k) * ll + lk)) with ((INR k / 2 - 1) * ll + INR k * lk) in Hm by (field; lra). lra.
  Qed.
End any.

(** ** SAD *)
Section sad.
  Variable A : list Z.
  Hypothesis HA : NoDup A.
  Hypothesis Hne : A <> [].
  Let k := length A.

  Lemma sad_k_pos : 1 <= INR k.
  Proof. apply (le_INR 1). unfold k. destruct A; [congruence|cbn; lia]. Qed.
  Lemma sad_steps okh : steps SAD_model A okh positive (sad_inv A).
  Proof. intros s a h w HI Ha _ Hw. exact (sad_step A s a h w HI Ha Hw). Qed.
  Lemma sad_part n : let c := ln (INR k) + / 2 * ln (INR (S n)) + 3 / 2 * ln (1 + ln (INR (S n))) + 4 in
    0 <= ln (INR (S n)) /\ 0 <= ln (1 + ln (INR (S n))) /\ 0 <= c.
  Proof.
    cbv zeta. pose proof sad_k_pos as HK.
    assert (H1 : 0 <= ln (INR (S n))) by (rewrite <- ln_1; apply KTRedundancy.ln_le; [lra|apply (le_INR 1); lia]).
    assert (H2 : 0 <= ln (1 + ln (INR (S n)))) by (rewrite <- ln_1 at 1; apply KTRedundancy.ln_le; lra).
    assert (H3 : 0 <= ln (INR k)) by (rewrite <- ln_1; apply KTRedundancy.ln_le; lra). split; [exact H1|]. split; [exact H2|lra].
  Qed.
  Lemma sad_learn_nonneg n : 0 <= sad_learn k n.
  Proof. destruct n as [|n]; [cbn; lra|]. cbn [sad_learn]. apply Rmult_le_pos; [apply pos_INR|apply (sad_part n)]. Qed.
  Lemma sad_learn_mono a b : (a <= b)%nat -> sad_learn k a <= sad_learn k b.
  Proof.
    intros H. destruct a as [|a]; [apply sad_learn_nonneg|]. destruct b as [|b]; [lia|]. cbn [sad_learn].
    destruct (sad_part a) as (P1 & P2 & _).
    assert (L1 : ln (INR (S a)) <= ln (INR (S b))) by (apply KTRedundancy.ln_le; [apply lt_0_INR; lia|apply le_INR; exact H]).
    assert (L2 : ln (1 + ln (INR (S a))) <= ln (1 + ln (INR (S b)))) by (apply KTRedundancy.ln_le; lra).
    apply Rmult_le_compat_l; [apply pos_INR|lra].
  Qed.

  Theorem sad_learns : learns SAD_model (sad_init (Z.of_nat k)) (symbol_of A) (memoryless A) (sad_learn k).
  Proof.
    apply learns_symbols; [reflexivity|]. intros theta xs Hd Hx Hpos. destruct xs as [|x0 xs0].
    { cbn [unit_events map seq_prob length sad_learn]. rewrite Rprod_nil, ln_1. lra. }
    set (xs := x0 :: xs0) in *. destruct (SADRedundancy.any_runs A xs HA Hne Hx) as [_ (s & l & E)].
    rewrite <- source_prod in Hpos |- *.
    pose proof (SADRedundancy.sad_redundancy A theta xs s l HA Hx ltac:(discriminate) (distribution_source A theta Hd) Hpos E) as H.
    unfold k. rewrite (seq_prob_run _ _ _ _ _ E), ln_exp. pose proof (used_most A xs HA Hx) as Ho. apply le_INR in Ho.
    pose proof (sad_part (length xs0)) as (_ & _ & Hc). change (S (length xs0)) with (length xs) in Hc. fold k in Ho, H |- *.
    change (sad_learn k (length xs)) with (INR k * (ln (INR k) + / 2 * ln (INR (length xs)) + 3 / 2 * ln (1 + ln (INR (length xs))) + 4)).
    pose proof (Rmult_le_compat_r _ _ _ Hc Ho). lra.
  Qed.
End sad.
