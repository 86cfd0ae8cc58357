(** CTW over KTBinary against a tree source: a coin at every leaf of a context tree. *)
From Coq Require Import Lra.
From Verif Require Import Model.KT Model.CTW Spec.SourceSpec.
From Verif Require Import Proofs.RealFacts Proofs.PyFacts Proofs.ProbFacts.
From Verif Require Import Proofs.KTFacts Proofs.KTBinFacts Proofs.KTRedundancy Proofs.CTWFacts Proofs.CTWMixture Proofs.CTWTop Proofs.CTWProps.
From Verif Require Import Proofs.SourceFacts.
Open Scope R_scope.

Section leaves.
  Variable K : list Z.

  (** The labels of the leaves below a list of subtrees. *)
  Fixpoint kid_leaves (u : list Z) (ks : list Z) (ts : list ctree) : list (list Z) :=
    match ks, ts with
    | k :: ks', t :: ts' => leaves K (u ++ [k]) t ++ kid_leaves u ks' ts'
    | _, _ => []
    end.

  Lemma leaves_branch u ts : leaves K u (Branch ts) = kid_leaves u K ts.
  Proof.
    cbn [leaves]. generalize K at 2 3. intros ks. revert ks.
    induction ts as [|t ts IH]; intros [|k ks]; cbn [kid_leaves]; try reflexivity. rewrite <- IH. reflexivity.
  Qed.

  Fixpoint kid_leaf (u : list Z) (k : Z) (c : list Z) (ks : list Z) (ts : list ctree) : list Z :=
    match ks, ts with
    | k' :: ks', t :: ts' => if (k =? k')%Z then leaf_at K (u ++ [k]) t c else kid_leaf u k c ks' ts'
    | _, _ => u
    end.

  Lemma leaf_at_branch u ts k c : leaf_at K u (Branch ts) (k :: c) = kid_leaf u k c K ts.
  Proof.
    cbn [leaf_at]. generalize K at 2 3. intros ks. revert ks.
    induction ts as [|t ts IH]; intros [|k' ks]; cbn [kid_leaf]; try reflexivity. rewrite <- IH. reflexivity.
  Qed.

  Variable ctx : list Z -> list Z.

  (** The tree probability is the product over the leaves. *)
  Lemma tree_prob_leaves {S} (M : model S) fresh d evs : forall t u, is_tree K d t ->
    tree_prob M fresh ctx K u t evs = Rprod (map (fun v => node_prob M fresh ctx v evs) (leaves K u t)).
  Proof.
    induction d as [|d IH]; intros t u Ht; inversion Ht as [|d' ts H1 H2]; subst;
      try (cbn [tree_prob leaves map]; rewrite Rprod_cons, Rprod_nil; lra).
    rewrite tree_prob_branch, leaves_branch. clear Ht H1. revert ts H2. generalize K at 3 4. intros ks.
    induction ks as [|k ks IHk]; intros [|t ts] H2; cbn [zipprod kid_leaves map]; try reflexivity.
    inversion H2; subst. rewrite map_app, Rprod_app, IHk by assumption. rewrite IH by assumption. reflexivity.
  Qed.

  (** One event meets exactly one leaf. *)
  Lemma matches_app u v e : matches ctx (u ++ v) e = true -> matches ctx u e = true.
  Proof.
    unfold matches. intros H. destruct (list_eq_dec Z.eq_dec (firstn (length (u ++ v)) (ctx (ev_hist e))) (u ++ v)) as [E|]; [|discriminate].
    destruct (list_eq_dec Z.eq_dec (firstn (length u) (ctx (ev_hist e))) u) as [|N]; [reflexivity|]. destruct N.
    apply (f_equal (firstn (length u))) in E. rewrite firstn_app, Nat.sub_diag, firstn_all in E. cbn [firstn] in E.
    rewrite app_nil_r, firstn_firstn in E. rewrite app_length, Nat.min_l in E by lia. exact E.
  Qed.

  Definition hit (f : list Z -> R) (v : list Z) (e : event) : R := if matches ctx v e then f v else 1.

  Lemma miss_leaves f d e : forall t u, is_tree K d t -> matches ctx u e = false ->
    Rprod (map (fun v => hit f v e) (leaves K u t)) = 1.
  Proof.
    induction d as [|d IH]; intros t u Ht Hm; inversion Ht as [|d' ts H1 H2]; subst;
      try (cbn [leaves map]; rewrite Rprod_cons, Rprod_nil; unfold hit; rewrite Hm; lra).
    rewrite leaves_branch. clear Ht H1. revert ts H2. generalize K at 2. intros ks.
    induction ks as [|k ks IHk]; intros [|t ts] H2; cbn [kid_leaves map]; try reflexivity.
    inversion H2; subst. rewrite map_app, Rprod_app, IHk by assumption. rewrite IH; [lra|assumption|].
    destruct (matches ctx (u ++ [k]) e) eqn:E; [|reflexivity]. apply matches_app in E. congruence.
  Qed.

  Lemma miss_kids f d e u ks : forall ts, Forall (is_tree K d) ts -> (forall k, In k ks -> matches ctx (u ++ [k]) e = false) ->
    Rprod (map (fun v => hit f v e) (kid_leaves u ks ts)) = 1.
  Proof.
    induction ks as [|k ks IH]; intros [|t ts] HF Hm; cbn [kid_leaves map]; try reflexivity. inversion HF; subst.
    rewrite map_app, Rprod_app, IH, (miss_leaves f d); [lra|assumption|apply Hm; left; reflexivity|assumption|].
    intros k2 Hk2. apply Hm. right. exact Hk2.
  Qed.

  Lemma matches_snoc u k c e : ctx (ev_hist e) = u ++ k :: c -> forall k', matches ctx (u ++ [k']) e = (k =? k')%Z.
  Proof.
    intros E k'. unfold matches. rewrite E.
    replace (firstn (length (u ++ [k'])) (u ++ k :: c)) with (u ++ [k]).
    2:{ rewrite app_length. cbn [length]. rewrite firstn_app.
        rewrite firstn_all2 by lia. replace (length u + 1 - length u)%nat with 1%nat by lia. reflexivity. }
    destruct (list_eq_dec Z.eq_dec (u ++ [k]) (u ++ [k'])) as [E'|N].
    - apply app_inj_tail in E' as [_ ->]. rewrite Z.eqb_refl. reflexivity.
    - symmetry. apply Z.eqb_neq. intros ->. apply N. reflexivity.
  Qed.

  Hypothesis HK : NoDup K.

  Lemma hit_leaves f e d : forall t u c, is_tree K d t -> ctx (ev_hist e) = u ++ c -> (d <= length c)%nat -> incl c K ->
    Rprod (map (fun v => hit f v e) (leaves K u t)) = f (leaf_at K u t c).
  Proof.
    induction d as [|d IH]; intros t u c Ht Hc Hd Hi.
    1: assert (t = Leaf) by (inversion Ht; reflexivity).
    2: destruct t as [|ts].
    1: subst t.
    1, 2: cbn [leaves map leaf_at]; rewrite Rprod_cons, Rprod_nil; unfold hit, matches; rewrite Hc, firstn_app, Nat.sub_diag, firstn_all;
      cbn [firstn]; rewrite app_nil_r; destruct (list_eq_dec Z.eq_dec u u); [lra|congruence].
    destruct c as [|k c]; [cbn in Hd; lia|]. rewrite leaves_branch, leaf_at_branch.
    inversion Ht as [|d' ts' H1 H2]; subst. clear Ht.
    pose proof (matches_snoc u k c e Hc) as Hm.
    assert (Hk : In k K) by (apply Hi; left; reflexivity).
    assert (Hi' : incl c K) by (intros x Hx; apply Hi; right; exact Hx).
    assert (Hd' : (d <= length c)%nat) by (cbn in Hd; lia).
    pose proof HK as Hnd. revert H1 H2 Hk Hnd. generalize K at 1 3 4 5 6. intros ks. revert ts.
    induction ks as [|k' ks IHk]; intros [|t ts] H1 H2 Hk Hnd; try discriminate; [destruct Hk|].
    inversion H2; subst. inversion Hnd; subst. cbn [kid_leaves kid_leaf map]. rewrite map_app, Rprod_app.
    destruct (k =? k')%Z eqn:E.
    - apply Z.eqb_eq in E. subst k'. rewrite (IH t (u ++ [k]) c); [|assumption|rewrite <- app_assoc; exact Hc|assumption|assumption].
      rewrite (miss_kids f d); [lra|assumption|]. intros k2 Hk2. rewrite Hm. apply Z.eqb_neq. intros ->. contradiction.
    - rewrite (miss_leaves f d); [|assumption|rewrite Hm; exact E]. rewrite Rmult_1_l.
      apply IHk; try assumption; [cbn in H1; lia|]. destruct Hk as [->|Hk]; [rewrite Z.eqb_refl in E; discriminate|exact Hk].
  Qed.
End leaves.

(** Grouping the tosses of a tree source by leaf. *)
Lemma tree_source_leaves K theta D d t evs : NoDup K -> In 0%Z K -> (d <= D)%nat -> is_tree K d t ->
  Forall (fun e => (ev_sym e = 0%Z \/ ev_sym e = 1%Z) /\ incl (ev_hist e) K) evs ->
  tree_source K theta D t evs =
  Rprod (map (fun v => coin_prob (theta v) (syms (sel (recent D) v evs))) (leaves K [] t)).
Proof.
  intros HK H0 Hd Ht. unfold tree_source. induction evs as [|e evs IH]; intros Hev.
  - cbn [map sel filter]. rewrite Rprod_nil. symmetry. induction (leaves K [] t) as [|v vs IHv]; cbn [map]; [reflexivity|].
    rewrite Rprod_cons, IHv. unfold coin_prob, occ. cbn. lra.
  - inversion Hev as [|x y [Hb Hh] Hev']; subst. cbn [map]. rewrite Rprod_cons, (IH Hev').
    rewrite <- (hit_leaves K (recent D) HK (fun v => coin (theta v) (ev_sym e)) e d t [] (recent D (ev_hist e)) Ht eq_refl).
    2:{ rewrite recent_length. exact Hd. }
    2:{ apply recent_incl; assumption. }
    rewrite <- Rprod_map_mult. apply Rprod_map_ext. intros v _. unfold hit. cbn [sel filter].
    destruct (matches (recent D) v e) eqn:E; [|unfold sel; lra]. cbn [map]. rewrite coin_prob_cons by exact Hb. reflexivity.
Qed.

Lemma Rprod_le {X} (f g : X -> R) l : (forall x, In x l -> 0 <= f x <= g x) -> 0 <= Rprod (map f l) <= Rprod (map g l).
Proof.
  intros H. induction l as [|x l IH]; cbn [map]; rewrite ?Rprod_cons, ?Rprod_nil; [lra|].
  destruct (H x (or_introl eq_refl)) as [H1 H2]. destruct (IH (fun y Hy => H y (or_intror Hy))) as [H3 H4].
  split; [apply Rmult_le_pos; assumption|apply Rmult_le_compat; assumption].
Qed.

Lemma Rprod_exp {X} (f : X -> R) l : Rprod (map (fun x => exp (f x)) l) = exp (Rsum (map f l)).
Proof.
  induction l as [|x l IH]; cbn [map]; rewrite ?Rprod_cons, ?Rprod_nil, ?Rsum_cons, ?Rsum_nil; [rewrite exp_0; reflexivity|].
  rewrite exp_plus, IH. reflexivity.
Qed.

(** CTW loses, against any coins at the leaves of any tree, the price of the tree plus the price
    of learning each coin from the tosses made at its leaf. *)
Lemma ctw_tree_source binary K D theta t evs : NoDup K -> In 0%Z K -> (binary = true -> incl K [0; 1]%Z) -> (0 < D)%nat ->
  is_tree K D t -> (forall v, 0 <= theta v <= 1) ->
  unit_bits evs -> Forall (fun e => incl (ev_hist e) K) evs -> 0 < tree_source K theta D t evs ->
  exists s l, run (CTW_model KTB_model ktb_init binary) (ctw_init ktb_init (Z.of_nat D)) evs = Ok (s, l) /\
    - l <= - ln (tree_source K theta D t evs)
           + Rsum (map (fun v => learn (length (sel (recent D) v evs))) (leaves K [] t))
           + INR (cost D t) * ln 2.
Proof.
  intros HK H0 Hbin HD Ht Hth Hu Hh Hpos.
  assert (Hev : Forall (fun e => ok_event [0; 1]%Z any_hist nonneg e /\ incl (ev_hist e) K) evs).
  { apply Forall_forall. intros e He. split.
    - exact (proj1 (Forall_forall _ _) (unit_bits_ok _ Hu) e He).
    - exact (proj1 (Forall_forall _ _) Hh e He). }
  destruct (ctw_total_mixture KTB_model ktb_init binary [0; 1]%Z any_hist nonneg ktb_inv K D (law_step _ _ _ _ _ ktb_lawful)
    ktb_inv_init HK H0 Hbin HD evs Hev) as (s & l & Hr & _).
  exists s, l. split; [exact Hr|].
  pose proof (ctw_total_regret KTB_model ktb_init binary [0; 1]%Z any_hist nonneg ktb_inv K D (law_step _ _ _ _ _ ktb_lawful)
    ktb_inv_init HK H0 Hbin HD evs t s l Hev Ht Hr) as Hreg.
  assert (Hsrc : tree_source K theta D t evs =
    Rprod (map (fun v => coin_prob (theta v) (syms (sel (recent D) v evs))) (leaves K [] t))).
  { apply (tree_source_leaves K theta D D); auto. apply Forall_forall. intros e He. split.
    - exact (proj1 (proj1 (Forall_forall _ _) Hu e He)).
    - exact (proj1 (Forall_forall _ _) Hh e He). }
  assert (Hle : tree_source K theta D t evs * exp (- Rsum (map (fun v => learn (length (sel (recent D) v evs))) (leaves K [] t)))
                <= tree_prob KTB_model ktb_init (recent D) K [] t evs).
  { rewrite (tree_prob_leaves K (recent D) KTB_model ktb_init D evs t [] Ht), Hsrc.
    replace (- Rsum (map (fun v => learn (length (sel (recent D) v evs))) (leaves K [] t)))
      with (Rsum (map (fun v => -1 * learn (length (sel (recent D) v evs))) (leaves K [] t))) by (rewrite Rsum_scal_l; lra).
    rewrite <- Rprod_exp, <- Rprod_map_mult. apply Rprod_le. intros v _.
    replace (-1 * learn (length (sel (recent D) v evs))) with (- learn (length (sel (recent D) v evs))) by lra. split.
    - apply Rmult_le_pos; [|left; apply exp_pos]. unfold coin_prob. specialize (Hth v). apply Rmult_le_pos; apply pow_le; lra.
    - apply ktb_learn; [|apply Hth]. unfold unit_bits. apply sel_forall. exact Hu. }
  apply ln_le in Hle; [|apply Rmult_lt_0_compat; [exact Hpos|apply exp_pos]].
  rewrite ln_mult, ln_exp in Hle by (auto using exp_pos). lra.
Qed.
