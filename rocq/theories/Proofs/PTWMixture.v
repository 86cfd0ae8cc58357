(** PTW as a mixture over binary temporal partitions. *)
From Coq Require Import Lra.
From Verif Require Import Model.PTW Spec.PTWSpec Proofs.RealFacts Proofs.PyFacts Proofs.ProbFacts Proofs.PTWFacts Proofs.PTWTop.
Open Scope R_scope.

Lemma all_parts_spec d p : In p (all_parts d) <-> is_part d p.
Proof.
  revert p; induction d as [|d IH]; intros p; cbn [all_parts].
  - destruct p; cbn; split; try tauto. intros [H|[]]; discriminate.
  - destruct p as [|l r]; cbn [In is_part].
    + tauto.
    + rewrite in_flat_map. split.
      * intros [H|(x & Hx & H)]; [discriminate|]. apply in_map_iff in H as (y & E & Hy).
        injection E as -> ->. split; apply IH; assumption.
      * intros (Hl & Hr). right. exists l. split; [apply IH, Hl|]. apply in_map, IH, Hr.
Qed.

Lemma NoDup_app_disjoint {X} (l1 l2 : list X) :
  NoDup l1 -> NoDup l2 -> (forall x, In x l1 -> ~ In x l2) -> NoDup (l1 ++ l2).
Proof.
  intros H1 H2 Hd; induction H1 as [|x l Hx H1 IH]; cbn [app]; [exact H2|].
  constructor.
  - rewrite in_app_iff. intros [H|H]; [contradiction|]. apply (Hd x); [left; reflexivity|exact H].
  - apply IH. intros y Hy. apply Hd. right; exact Hy.
Qed.

Lemma NoDup_flat_map_pairs {X Y} (f : X -> X -> Y) la lb :
  (forall a b a' b', f a b = f a' b' -> a = a' /\ b = b') ->
  NoDup la -> NoDup lb -> NoDup (flat_map (fun a => map (f a) lb) la).
Proof.
  intros Hinj Ha Hb. induction Ha as [|a la Hna Ha IH]; cbn [flat_map]; [constructor|].
  apply NoDup_app_disjoint; [|exact IH|].
  - apply FinFun.Injective_map_NoDup; [|exact Hb]. intros x y E. apply Hinj in E. tauto.
  - intros y Hy Hy'. apply in_map_iff in Hy as (b & <- & _). apply in_flat_map in Hy' as (a' & Ha' & H).
    apply in_map_iff in H as (b' & E & _). apply Hinj in E as (-> & _). contradiction.
Qed.

Lemma all_parts_nodup d : NoDup (all_parts d).
Proof.
  induction d as [|d IH]; cbn [all_parts]; [constructor; [intros []|constructor]|].
  constructor.
  - intros H. apply in_flat_map in H as (x & _ & H). apply in_map_iff in H as (y & E & _). discriminate.
  - apply NoDup_flat_map_pairs; [|exact IH|exact IH]. intros a b a' b' E. injection E; auto.
Qed.

Lemma Rsum_pairs {X Y} (f : X -> Y -> R) la lb :
  Rsum (map (fun a => Rsum (map (f a) lb)) la) =
  Rsum (map (fun x => x) (flat_map (fun a => map (f a) lb) la)).
Proof. rewrite Rsum_flat_map. apply Rsum_map_ext. intros a _. rewrite map_id. reflexivity. Qed.

Lemma Rsum_prod {X} (f g : X -> R) la lb :
  Rsum (map f la) * Rsum (map g lb) = Rsum (map (fun a => Rsum (map (fun b => f a * g b) lb)) la).
Proof.
  rewrite <- Rsum_scal_r. apply Rsum_map_ext. intros a _. rewrite Rsum_scal_l. reflexivity.
Qed.

Section mixture.
  Context {S : Type} (M : model S) (mk : nat -> S) (m : nat).
  Notation P := (ptw_prob M mk m).
  Notation Q := (part_prob M mk m).

  Lemma ptw_mixture d : forall s evs,
    P d s evs = Rsum (map (fun p => (/ 2) ^ pcost d p * Q d s p evs) (all_parts d)).
  Proof.
    induction d as [|d IH]; intros s evs; cbn [ptw_prob all_parts].
    - cbn [map]. rewrite Rsum_single. cbn. lra.
    - cbn [map]. rewrite Rsum_cons. f_equal.
      + cbn. lra.
      + rewrite Rsum_flat_map. rewrite !IH, Rsum_prod, <- Rsum_scal_l.
        apply Rsum_map_ext. intros l _. rewrite map_map, <- Rsum_scal_l.
        apply Rsum_map_ext. intros r _. cbn [pcost part_prob].
        rewrite !pow_add, pow_1. ring.
  Qed.

  Lemma part_prior d : Rsum (map (fun p => (/ 2) ^ pcost d p) (all_parts d)) = 1.
  Proof.
    pose proof (ptw_mixture d 0 []) as H. rewrite ptw_prob_nil in H. rewrite H.
    apply Rsum_map_ext. intros p _.
    assert (E : forall d s, Q d s p [] = 1).
    { induction p as [|l IHl r IHr]; intros [|d'] s; cbn [part_prob seq_prob]; try reflexivity.
      rewrite firstn_nil, skipn_nil, IHl, IHr. lra. }
    rewrite E. lra.
  Qed.

  Context (A : list Z) (okh : list Z -> Prop) (okw : R -> Prop) (Inv : S -> Prop).
  Hypothesis HS : steps M A okh okw Inv.
  Hypothesis Hmk : forall t, Inv (mk t).
  Notation ok := (ok_event A okh okw).

  Lemma part_prob_pos p : forall d s evs, Forall ok evs -> 0 < Q d s p evs.
  Proof.
    assert (H0 : forall s evs, Forall ok evs -> 0 < seq_prob M (mk s) evs)
      by (intros s evs H; eapply steps_seq_prob_pos; eauto).
    induction p as [|l IHl r IHr]; intros d s evs H; destruct d as [|d]; cbn [part_prob]; auto.
    apply Rmult_lt_0_compat; [apply IHl, Forall_firstn, H|apply IHr, Forall_skipn, H].
  Qed.

  Lemma ptw_dominates d p s evs : is_part d p -> Forall ok evs ->
    (/ 2) ^ pcost d p * Q d s p evs <= P d s evs.
  Proof.
    intros Hp Hev. rewrite ptw_mixture.
    apply Rsum_ge_elem.
    - intros y Hy. apply in_map_iff in Hy as (q & <- & _). left. apply Rmult_lt_0_compat.
      + apply pow_lt. lra.
      + apply part_prob_pos, Hev.
    - apply (in_map (fun p => (/ 2) ^ pcost d p * Q d s p evs)). apply all_parts_spec, Hp.
  Qed.

  Lemma ptw_regret d p s evs : is_part d p -> Forall ok evs ->
    - ln (P d s evs) <= - ln (Q d s p evs) + INR (pcost d p) * ln 2.
  Proof.
    intros Hp Hev. pose proof (ptw_dominates d p s evs Hp Hev) as H.
    pose proof (part_prob_pos p d s evs Hev) as Hq.
    assert (Hpow : 0 < (/ 2) ^ pcost d p) by (apply pow_lt; lra).
    assert (Hln : ln ((/ 2) ^ pcost d p * Q d s p evs) <= ln (P d s evs)).
    { destruct H as [H|H]; [left; apply ln_increasing; [nra|exact H]|rewrite H; right; reflexivity]. }
    rewrite ln_mult in Hln by assumption.
    rewrite ln_pow in Hln by lra. rewrite ln_Rinv in Hln by lra. lra.
  Qed.
End mixture.

(** The segments of a partition tile the whole. *)
Fixpoint tiles (s : nat) (l : list (nat * nat)) (e : nat) : Prop :=
  match l with
  | [] => s = e
  | (b, len) :: l' => b = s /\ tiles (s + len) l' e
  end.

Lemma tiles_app l1 : forall s l2 e e', tiles s l1 e -> tiles e l2 e' -> tiles s (l1 ++ l2) e'.
Proof.
  induction l1 as [|[b len] l1 IH]; intros s l2 e e' H1 H2; cbn [tiles app] in *.
  - subst; exact H2.
  - destruct H1 as (-> & H1). split; [reflexivity|]. eapply IH; eauto.
Qed.

Lemma segments_tile m p : forall d s, is_part d p -> tiles s (segments m d s p) (s + 2 ^ (m + d)).
Proof.
  induction p as [|l IHl r IHr]; intros d s H; destruct d as [|d]; cbn [is_part segments] in *;
    try contradiction; try (cbn; split; reflexivity).
  destruct H as (Hl & Hr). eapply tiles_app; [apply IHl, Hl|].
  replace (s + 2 ^ (m + S d))%nat with (s + 2 ^ (m + d) + 2 ^ (m + d))%nat; [apply IHr, Hr|].
  replace (m + S d)%nat with (S (m + d)) by lia. cbn [Nat.pow]. lia.
Qed.

Lemma skipn_add {X} a b (l : list X) : skipn a (skipn b l) = skipn (b + a) l.
Proof. revert l; induction b as [|b IH]; intros l; [reflexivity|]. destruct l; [rewrite !skipn_nil; reflexivity|apply IH]. Qed.

(** The partition probability is the product of the base probabilities of its segments. *)
Lemma part_prob_segments {S} (M : model S) mk m p : forall d s evs, is_part d p ->
  (length evs <= 2 ^ (m + d))%nat ->
  part_prob M mk m d s p evs =
  Rprod (map (fun sg => seq_prob M (mk (fst sg)) (firstn (snd sg) (skipn (fst sg - s) evs)))
             (segments m d s p)).
Proof.
  assert (Hw : forall d s evs, (length evs <= 2 ^ (m + d))%nat ->
    seq_prob M (mk s) evs = Rprod (map (fun sg => seq_prob M (mk (fst sg)) (firstn (snd sg) (skipn (fst sg - s) evs))) [(s, 2 ^ (m + d))%nat])).
  { intros d s evs Hl. cbn [map fst snd Rprod fold_right]. replace (s - s)%nat with 0%nat by lia.
    cbn [skipn]. rewrite firstn_all2 by exact Hl. rewrite Rmult_1_r. reflexivity. }
  induction p as [|l IHl r IHr]; intros d s evs H Hl; destruct d as [|d]; cbn [is_part segments part_prob] in *;
    try contradiction; try (apply Hw; exact Hl).
  destruct H as (H1 & H2). rewrite map_app, Rprod_app.
  set (half := (2 ^ (m + d))%nat) in *.
  assert (Hh : (2 ^ (m + Datatypes.S d) = half + half)%nat)
    by (replace (m + Datatypes.S d)%nat with (Datatypes.S (m + d)) by lia; cbn [Nat.pow]; unfold half; lia).
  rewrite (IHl d s (firstn half evs) H1) by (rewrite firstn_length; fold half; lia).
  rewrite (IHr d (s + half)%nat (skipn half evs) H2) by (rewrite skipn_length; fold half; lia).
  assert (Hrange : forall sgs a b, tiles a sgs b -> forall x, In x sgs -> (a <= fst x /\ fst x + snd x <= b)%nat).
  { induction sgs as [|[b0 len] sgs IH]; intros a b Ht x Hx; [destruct Hx|].
    destruct Ht as (-> & Ht). assert (Hab : forall sgs a b, tiles a sgs b -> (a <= b)%nat).
    { clear. induction sgs as [|[b0 len] sgs IH]; intros a b; cbn [tiles]; [lia|].
      intros (-> & H). apply IH in H. lia. }
    destruct Hx as [<-|Hx]; cbn [fst snd]; [apply Hab in Ht; lia|]. specialize (IH _ _ Ht x Hx). lia. }
  f_equal; apply Rprod_map_ext.
  - intros x Hx. pose proof (Hrange _ _ _ (segments_tile m l d s H1) x Hx) as (Ha & Hb). fold half in Hb.
    f_equal. rewrite skipn_firstn_comm, firstn_firstn. f_equal. lia.
  - intros x Hx. pose proof (Hrange _ _ _ (segments_tile m r d (s + half) H2) x Hx) as (Ha & Hb).
    f_equal. rewrite skipn_add. do 2 f_equal. lia.
Qed.
