(** The weighted probability is a mixture over all context trees. *)
From Coq Require Import Lra.
From Verif Require Import Model.CTW Spec.CTWSpec.
From Verif Require Import Proofs.RealFacts Proofs.PyFacts Proofs.ProbFacts Proofs.CTWFacts.
Open Scope R_scope.

Section tuples.
  Context {X : Type}.
  Lemma tuples_length n (l : list X) t : In t (tuples n l) -> length t = n.
  Proof.
    revert t; induction n as [|n IH]; intros t; cbn [tuples].
    - intros [<-|[]]. reflexivity.
    - intros H. apply in_flat_map in H as (x & _ & H). apply in_map_iff in H as (t' & <- & H).
      cbn [length]. rewrite (IH t' H). reflexivity.
  Qed.

  Lemma tuples_spec n (l : list X) t : In t (tuples n l) <-> length t = n /\ incl t l.
  Proof.
    revert t; induction n as [|n IH]; intros t; cbn [tuples].
    - split.
      + intros [<-|[]]. split; [reflexivity|intros x []].
      + intros [H _]. destruct t; [left; reflexivity|discriminate].
    - split.
      + intros H. apply in_flat_map in H as (x & Hx & H). apply in_map_iff in H as (t' & <- & H).
        apply IH in H as [H1 H2]. split; [cbn; lia|]. intros y [<-|Hy]; auto.
      + intros [H1 H2]. destruct t as [|x t]; [discriminate|]. apply in_flat_map. exists x.
        split; [apply H2; left; reflexivity|]. apply in_map. apply IH. split; [cbn in H1; lia|].
        intros y Hy. apply H2. right; exact Hy.
  Qed.

  Lemma NoDup_flat_map_cons (T : list (list X)) (l : list X) : NoDup T -> NoDup l ->
    NoDup (flat_map (fun x => map (cons x) T) l).
  Proof.
    intros HT. induction l as [|x l IH]; intros Hl; cbn [flat_map]; [constructor|].
    inversion Hl as [|y l' Hx Hl']; subst. apply NoDup_app_intro_local.
    - apply FinFun.Injective_map_NoDup; [|exact HT]. intros t t' H; congruence.
    - apply IH; exact Hl'.
    - intros t Ht Ht2. apply in_map_iff in Ht as (t1 & <- & _). apply in_flat_map in Ht2 as (y & Hy & Ht2).
      apply in_map_iff in Ht2 as (t2 & E & _). injection E as E _. subst y. contradiction.
  Qed.

  Lemma tuples_nodup n (l : list X) : NoDup l -> NoDup (tuples n l).
  Proof.
    intros Hl. induction n as [|n IH]; cbn [tuples].
    - constructor; [intros []|constructor].
    - apply NoDup_flat_map_cons; assumption.
  Qed.

  (** Product over [ks] of a function of the paired list. *)
  Fixpoint zipprod (f : Z -> X -> R) (ks : list Z) (ts : list X) : R :=
    match ks, ts with
    | k :: ks', t :: ts' => f k t * zipprod f ks' ts'
    | _, _ => 1
    end.

  (** Product of sums = sum of products. *)
  Lemma prod_sum (f : Z -> X -> R) (T : list X) (ks : list Z) :
    Rprod (map (fun k => Rsum (map (f k) T)) ks) = Rsum (map (zipprod f ks) (tuples (length ks) T)).
  Proof.
    induction ks as [|k ks IH]; cbn [map tuples length].
    - rewrite Rprod_nil. cbn [map zipprod]. rewrite Rsum_single. reflexivity.
    - rewrite Rprod_cons, IH, Rsum_flat_map.
      rewrite <- (Rsum_scal_r (f k)). apply Rsum_map_ext. intros x _.
      rewrite map_map. cbn [zipprod]. rewrite <- (Rsum_scal_l (zipprod f ks)). reflexivity.
  Qed.

  Lemma zipprod_mult (f g : Z -> X -> R) ks ts :
    zipprod (fun k t => f k t * g k t) ks ts = zipprod f ks ts * zipprod g ks ts.
  Proof.
    revert ts; induction ks as [|k ks IH]; intros [|t ts]; cbn [zipprod]; try lra. rewrite IH. lra.
  Qed.

  Lemma zipprod_const (w : X -> R) ks ts : length ts = length ks ->
    zipprod (fun _ t => w t) ks ts = Rprod (map w ts).
  Proof.
    revert ts; induction ks as [|k ks IH]; intros [|t ts] H; cbn in H; try discriminate; cbn [zipprod map].
    - rewrite Rprod_nil; reflexivity.
    - rewrite Rprod_cons, IH by lia. reflexivity.
  Qed.
End tuples.

Lemma pow_list_sum r (l : list nat) : r ^ list_sum l = Rprod (map (fun n => r ^ n) l).
Proof.
  induction l as [|x l IH]; cbn [map list_sum fold_right].
  - rewrite Rprod_nil. reflexivity.
  - rewrite Rprod_cons. fold (list_sum l). rewrite pow_add, IH. reflexivity.
Qed.

Section mixture.
  Context {S : Type} (M : model S) (fresh : S).
  Variable ctx : list Z -> list Z.
  Variable K : list Z.

  Notation tree_prob := (tree_prob M fresh ctx K).
  Notation ctw_prob := (ctw_prob M fresh ctx K).
  Notation all_trees := (all_trees K).

  Lemma tree_prob_branch u ts evs :
    tree_prob u (Branch ts) evs = zipprod (fun k t => tree_prob (u ++ [k]) t evs) K ts.
  Proof.
    cbn [CTWSpec.tree_prob]. generalize K at 2 4. intros ks. revert ks.
    induction ts as [|t ts IH]; intros [|k ks]; cbn [zipprod]; try reflexivity.
    rewrite <- IH. reflexivity.
  Qed.

  Lemma ctw_mixture d u evs :
    ctw_prob d u evs = Rsum (map (fun t => (/ 2) ^ cost d t * tree_prob u t evs) (all_trees d)).
  Proof.
    revert u; induction d as [|d IH]; intros u; cbn [CTWSpec.ctw_prob CTWSpec.all_trees map].
    - rewrite Rsum_single. cbn [cost CTWSpec.tree_prob pow]. lra.
    - rewrite Rsum_cons. f_equal.
      + cbn [cost CTWSpec.tree_prob pow]. lra.
      + rewrite (Rprod_map_ext _ (fun k => Rsum (map (fun t => (/ 2) ^ cost d t * tree_prob (u ++ [k]) t evs) (all_trees d)))).
        2:{ intros k _. apply IH. }
        rewrite prod_sum, map_map, <- Rsum_scal_l. apply Rsum_map_ext. intros ts Hts.
        apply tuples_length in Hts.
        rewrite (zipprod_mult (fun _ t => (/ 2) ^ cost d t)), zipprod_const by exact Hts.
        rewrite tree_prob_branch. cbn [cost pow plus]. rewrite pow_list_sum, map_map. lra.
  Qed.

  Lemma all_trees_spec d t : In t (all_trees d) <-> is_tree K d t.
  Proof.
    revert t; induction d as [|d IH]; intros t; cbn [CTWSpec.all_trees].
    - split.
      + intros [<-|[]]. constructor.
      + intros H. inversion H; subst. left; reflexivity.
    - split.
      + intros [<-|H]; [constructor|]. apply in_map_iff in H as (ts & <- & H). apply tuples_spec in H as [H1 H2].
        constructor; [exact H1|]. apply Forall_forall. intros t Ht. apply IH, H2, Ht.
      + intros H. inversion H as [|d' ts H1 H2]; subst; [left; reflexivity|]. right. apply in_map.
        apply tuples_spec. split; [exact H1|]. intros t Ht. apply IH. rewrite Forall_forall in H2. auto.
  Qed.

  Lemma all_trees_nodup d : NoDup (all_trees d).
  Proof.
    induction d as [|d IH]; cbn [CTWSpec.all_trees].
    - constructor; [intros []|constructor].
    - constructor.
      + intros H. apply in_map_iff in H as (ts & E & _). discriminate.
      + apply FinFun.Injective_map_NoDup; [intros a b H; congruence|]. apply tuples_nodup, IH.
  Qed.

  Lemma tree_prob_nil d : forall t u, is_tree K d t -> tree_prob u t [] = 1.
  Proof.
    induction d as [|d IH]; intros t u Ht; inversion Ht as [|d' ts H1 H2]; subst; try reflexivity.
    rewrite tree_prob_branch. clear Ht H1. revert ts H2. generalize K at 3. intros ks; revert u.
    induction ks as [|k ks IHk]; intros u [|t ts] H2; cbn [zipprod]; try reflexivity.
    inversion H2; subst. rewrite IHk by assumption. rewrite IH by assumption. lra.
  Qed.

  (** The prior over trees sums to one. *)
  Lemma tree_prior d : Rsum (map (fun t => (/ 2) ^ cost d t) (all_trees d)) = 1.
  Proof.
    rewrite <- (ctw_prob_nil M fresh ctx K d [] []) by reflexivity. rewrite ctw_mixture.
    apply Rsum_map_ext. intros t Ht. apply all_trees_spec in Ht. rewrite (tree_prob_nil d t [] Ht). lra.
  Qed.

  Context (A : list Z) (okh : list Z -> Prop) (okw : R -> Prop) (Inv : S -> Prop).
  Hypothesis HS : steps M A okh okw Inv.
  Hypothesis Hfresh : Inv fresh.

  Lemma node_prob_pos u evs : Forall (ok_event A okh okw) evs -> 0 < node_prob M fresh ctx u evs.
  Proof.
    intros Hev. apply (steps_seq_prob_pos M A okh okw Inv HS); [exact Hfresh|]. apply sel_forall. exact Hev.
  Qed.

  Lemma tree_prob_pos d evs : Forall (ok_event A okh okw) evs -> forall t u, is_tree K d t -> 0 < tree_prob u t evs.
  Proof.
    intros Hev. induction d as [|d IH]; intros t u Ht; inversion Ht as [|d' ts H1 H2]; subst;
      try (cbn [CTWSpec.tree_prob]; apply node_prob_pos; exact Hev).
    rewrite tree_prob_branch. clear Ht H1. revert ts H2. generalize K at 3. intros ks; revert u.
    induction ks as [|k ks IHk]; intros u [|t ts] H2; cbn [zipprod]; try lra.
    inversion H2; subst. apply Rmult_lt_0_compat; [apply IH; assumption|apply IHk; assumption].
  Qed.

  Lemma ctw_dominates d u evs t : Forall (ok_event A okh okw) evs -> is_tree K d t ->
    (/ 2) ^ cost d t * tree_prob u t evs <= ctw_prob d u evs.
  Proof.
    intros Hev Ht. rewrite ctw_mixture. apply Rsum_ge_elem.
    - intros y Hy. apply in_map_iff in Hy as (t' & <- & Hy). apply all_trees_spec in Hy. left.
      apply Rmult_lt_0_compat; [apply pow_lt; lra|]. eapply tree_prob_pos; eauto.
    - apply in_map_iff. exists t. split; [reflexivity|]. apply all_trees_spec. exact Ht.
  Qed.

  Lemma ctw_regret d u evs t : Forall (ok_event A okh okw) evs -> is_tree K d t ->
    - ln (ctw_prob d u evs) <= - ln (tree_prob u t evs) + INR (cost d t) * ln 2.
  Proof.
    intros Hev Ht. pose proof (ctw_dominates d u evs t Hev Ht) as H.
    pose proof (tree_prob_pos d evs Hev t u Ht) as Hp.
    assert (Hc: 0 < (/ 2) ^ cost d t) by (apply pow_lt; lra).
    assert (Hl: ln ((/ 2) ^ cost d t * tree_prob u t evs) <= ln (ctw_prob d u evs)).
    { destruct (Rle_lt_or_eq_dec _ _ H) as [Hlt|Heq].
      - left. apply ln_increasing; [apply Rmult_lt_0_compat; assumption|exact Hlt].
      - right. f_equal. exact Heq. }
    rewrite ln_mult in Hl by assumption. rewrite ln_pow in Hl by lra. rewrite ln_Rinv in Hl by lra. lra.
  Qed.
End mixture.
