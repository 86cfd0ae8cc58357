(** PTW.map: which base it returns. *)
From Coq Require Import Lra Lia.
From Verif Require Import Model.PTW Spec.PTWMapSpec Proofs.RealFacts Proofs.PyFacts Proofs.ProbFacts Proofs.PTWFacts Proofs.PTWTop Proofs.PTWMixture.
Open Scope R_scope.

Lemma start_at_seg m p : forall d s t, is_part d p -> (t < 2 ^ (m + d))%nat ->
  exists len, In (start_at m d s p t, len) (segments m d s p) /\
    (start_at m d s p t <= s + t < start_at m d s p t + len)%nat.
Proof.
  induction p as [|l IHl r IHr]; intros [|d] s t Hp Ht; cbn [is_part start_at segments] in *; try contradiction.
  1,2: eexists; (split; [left; reflexivity|lia]).
  rewrite <- plus_n_Sm in Ht. cbn [Nat.pow] in Ht. destruct Hp as (Hl & Hr). destruct (Nat.ltb_spec t (2 ^ (m + d))) as [H|H].
  - destruct (IHl d s t Hl H) as (len & Hi & Hb). exists len. split; [apply in_or_app; left; exact Hi|exact Hb].
  - destruct (IHr d (s + 2 ^ (m + d))%nat (t - 2 ^ (m + d))%nat Hr ltac:(lia)) as (len & Hi & Hb). exists len.
    split; [apply in_or_app; right; exact Hi|lia].
Qed.

Lemma start_at_ge m p : forall d s t, (s <= start_at m d s p t)%nat.
Proof.
  induction p as [|l IHl r IHr]; intros [|d] s t; cbn [start_at]; try lia.
  destruct (t <? 2 ^ (m + d))%nat; [apply IHl|]. pose proof (IHr d (s + 2 ^ (m + d))%nat (t - 2 ^ (m + d))%nat). lia.
Qed.

Section map.
  Context {S : Type} (M : model S) (mk : nat -> S) (m : nat).
  Notation P := (ptw_prob M mk m).
  Notation Q := (part_prob M mk m).
  Notation post := (posterior M mk m).
  Notation scores := (open_scores M mk m).

  Lemma post_0 s evs t k : post 0 s evs t k = if Nat.eqb s k then seq_prob M (mk s) evs else 0.
  Proof. unfold posterior. cbn [all_parts map start_at pcost part_prob]. rewrite Rsum_single. destruct (Nat.eqb s k); lra. Qed.

  Lemma post_S d s evs t k : let half := (2 ^ (m + d))%nat in
    post (Datatypes.S d) s evs t k =
    (if Nat.eqb s k then / 2 * seq_prob M (mk s) evs else 0) +
    / 2 * (if (t <? half)%nat then post d s (firstn half evs) t k * P d (s + half) (skipn half evs)
           else P d s (firstn half evs) * post d (s + half) (skipn half evs) (t - half) k).
  Proof.
    intros half. unfold posterior at 1. cbn [all_parts map]. rewrite Rsum_cons. f_equal.
    - cbn [start_at pcost part_prob]. rewrite pow_1. reflexivity.
    - rewrite Rsum_flat_map. fold half. destruct (Nat.ltb_spec t half) as [Ht|Ht].
      + rewrite (ptw_mixture M mk m d (s + half)). unfold posterior. rewrite Rsum_prod, <- Rsum_scal_l.
        apply Rsum_map_ext. intros l _. rewrite map_map, <- Rsum_scal_l. apply Rsum_map_ext. intros r _.
        cbn [pcost part_prob start_at]. fold half. replace (t <? half)%nat with true by (symmetry; apply Nat.ltb_lt, Ht).
        destruct (Nat.eqb _ k); rewrite ?pow_add, ?pow_1; ring.
      + rewrite (ptw_mixture M mk m d s). unfold posterior. rewrite Rsum_prod, <- Rsum_scal_l.
        apply Rsum_map_ext. intros l _. rewrite map_map, <- Rsum_scal_l. apply Rsum_map_ext. intros r _.
        cbn [pcost part_prob start_at]. fold half. replace (t <? half)%nat with false by (symmetry; apply Nat.ltb_ge, Ht).
        destruct (Nat.eqb _ k); rewrite ?pow_add, ?pow_1; ring.
  Qed.

  Lemma post_low d s evs t k : (k < s)%nat -> post d s evs t k = 0.
  Proof.
    intros H. unfold posterior. rewrite (Rsum_map_ext _ (fun _ => 0 * 0)); [rewrite Rsum_scal_l; lra|].
    intros p _. pose proof (start_at_ge m p d s t). destruct (Nat.eqb_spec (start_at m d s p t) k); [lia|lra].
  Qed.

  Lemma scores_low d : forall s evs w k v, In (k, v) (scores d s evs w) -> (s <= k)%nat.
  Proof.
    induction d as [|d IH]; intros s evs w k v; cbn [open_scores].
    - intros [[= <- <-]|[]]. lia.
    - destruct (_ <=? _)%nat; [apply IH|]. intros [[= <- <-]|H]; [lia|]. apply IH in H. lia.
  Qed.

  (** The tree holds these scores. *)
  Definition scored (s : nat) (evs : list event) (x : R * S) (kw : nat * R) : Prop :=
    exp (fst x) = snd kw /\ exists l, run M (mk (fst kw)) (skipn (fst kw - s) evs) = Ok (snd x, l).

  Lemma scores_skip d : forall D s evs w, (d <= D)%nat -> (length evs <= 2 ^ (m + d))%nat ->
    scores D s evs w = scores d s evs w.
  Proof.
    intros D. induction D as [|D IH]; intros s evs w Hd Hl; [replace d with 0%nat by lia; reflexivity|].
    destruct (Nat.eq_dec d (Datatypes.S D)) as [->|Hn]; [reflexivity|]. cbn [open_scores].
    assert (H : (length evs <= 2 ^ (m + D))%nat) by (etransitivity; [exact Hl|apply Nat.pow_le_mono_r; lia]).
    rewrite (proj2 (Nat.leb_le _ _) H). apply IH; [lia|exact Hl].
  Qed.

  Lemma prep_scores : forall n d s evs left, prep M mk m d n s evs ->
    Forall2 (scored s evs) (pnode_scores n left) (scores d s evs (exp left)).
  Proof.
    fix IH 1. intros n d s evs left Hp. destruct n as [base height count blp llp lp rch].
    cbn [prep] in Hp. destruct Hp as (Hrun & -> & -> & Hle & _ & Hr). cbn [pnode_scores].
    assert (Hb : exp (blp + left) = exp left * seq_prob M (mk s) evs).
    { rewrite exp_plus, (seq_prob_run _ _ _ _ _ Hrun). ring. }
    assert (Hhd : scored s evs (blp + left, base) (s, exp left * seq_prob M (mk s) evs)).
    { split; [exact Hb|]. exists blp. cbn [fst snd]. rewrite Nat.sub_diag. exact Hrun. }
    destruct rch as [r|].
    - destruct Hr as (d' & dr & -> & Hdr & Hlt & Hllp & Hr). cbn [open_scores].
      rewrite (proj2 (Nat.leb_gt _ _) Hlt). constructor; [exact Hhd|].
      pose proof (prep_fields _ _ _ _ _ _ _ Hr) as (_ & _ & _ & Hlr & _).
      rewrite (scores_skip dr d' _ _ _ Hdr Hlr).
      assert (El : exp left * (/ 2 * P d' s (firstn (2 ^ (m + d')) evs)) = exp (left + (llp + log_0_5))).
      { rewrite !exp_plus, Hllp. unfold log_0_5. rewrite exp_ln by lra. field. }
      rewrite El. specialize (IH r dr _ _ (left + (llp + log_0_5)) Hr).
      assert (Hlow : forall k v, In (k, v) (scores dr (s + 2 ^ (m + d')) (skipn (2 ^ (m + d')) evs) (exp (left + (llp + log_0_5)))) -> (s + 2 ^ (m + d') <= k)%nat)
        by (intros k v; apply scores_low).
      revert IH Hlow. generalize (scores dr (s + 2 ^ (m + d')) (skipn (2 ^ (m + d')) evs) (exp (left + (llp + log_0_5)))).
      generalize (pnode_scores r (left + (llp + log_0_5))). clear. intros xs ks HF Hlow.
      induction HF as [|x [k v] xs ks (H1 & l & H2) HF IHF]; constructor.
      + split; [exact H1|]. exists l. cbn [fst snd] in *. rewrite skipn_add in H2.
        specialize (Hlow k v (or_introl eq_refl)). replace (2 ^ (m + d') + (k - (s + 2 ^ (m + d'))))%nat with (k - s)%nat in H2 by lia. exact H2.
      + apply IHF. intros k' v' H. eapply Hlow. right. exact H.
    - subst d. cbn [open_scores]. constructor; [exact Hhd|constructor].
  Qed.

  Lemma max_score_spec (l : list (R * S)) : forall b, In (max_score b l) (b :: l) /\
    forall x, In x (b :: l) -> fst x <= fst (max_score b l).
  Proof.
    induction l as [|y l IH]; intros b; cbn [max_score].
    - split; [left; reflexivity|]. intros x [->|[]]. lra.
    - destruct (Rlt_dec (fst b) (fst y)) as [H|H]; [destruct (IH y) as (Hi & Hm)|destruct (IH b) as (Hi & Hm)].
      + split; [right; exact Hi|]. intros x [<-|Hx]; [|apply Hm, Hx]. specialize (Hm y (or_introl eq_refl)). lra.
      + split; [destruct Hi; [left; assumption|right; right; assumption]|].
        intros x [<-|[<-|Hx]]; [apply Hm; left; reflexivity| |apply Hm; right; exact Hx].
        specialize (Hm b (or_introl eq_refl)). lra.
  Qed.

  Lemma Forall2_pick {X Y} (R : X -> Y -> Prop) l1 : forall l2 x, Forall2 R l1 l2 -> In x l1 -> exists y, In y l2 /\ R x y.
  Proof.
    induction l1 as [|a l1 IH]; intros l2 x HF Hx; [destruct Hx|]. inversion HF as [|? b ? l2' Hab HF']; subst.
    destruct Hx as [<-|Hx]; [exists b; split; [left; reflexivity|exact Hab]|].
    destruct (IH _ _ HF' Hx) as (y & Hy & Hr). exists y. split; [right; exact Hy|exact Hr].
  Qed.
  Lemma Forall2_pick_r {X Y} (R : X -> Y -> Prop) l2 : forall l1 y, Forall2 R l1 l2 -> In y l2 -> exists x, In x l1 /\ R x y.
  Proof.
    induction l2 as [|b l2 IH]; intros l1 y HF Hy; [destruct Hy|]. inversion HF as [|a ? l1' ? Hab HF']; subst.
    destruct Hy as [<-|Hy]; [exists a; split; [left; reflexivity|exact Hab]|].
    destruct (IH _ _ HF' Hy) as (x & Hx & Hr). exists x. split; [right; exact Hx|exact Hr].
  Qed.

  (** The base with the best score. *)
  Lemma best_scored xs x0 evs ks : Forall2 (scored 0 evs) (x0 :: xs) ks ->
    exists k w l, run M (mk k) (skipn k evs) = Ok (snd (max_score x0 xs), l) /\ In (k, w) ks /\
      forall j v, In (j, v) ks -> v <= w.
  Proof.
    intros HF. destruct (max_score_spec xs x0) as (Hi & Hm).
    destruct (Forall2_pick _ _ _ _ HF Hi) as ([k w] & Hk & Hw & l & Hl). exists k, w, l.
    cbn [fst snd] in *. rewrite Nat.sub_0_r in Hl. split; [exact Hl|]. split; [exact Hk|].
    intros j v Hj. destruct (Forall2_pick_r _ _ _ _ HF Hj) as (x & Hx & Hv & _). cbn [fst snd] in *.
    rewrite <- Hv, <- Hw. specialize (Hm x Hx). destruct Hm as [Hm|Hm]; [left; apply exp_increasing, Hm|rewrite Hm; right; reflexivity].
  Qed.

  Context (A : list Z) (okh : list Z -> Prop) (okw : R -> Prop) (Inv : S -> Prop).
  Hypothesis HS : steps M A okh okw Inv.
  Hypothesis Hmk : forall t, Inv (mk t).
  Notation ok := (ok_event A okh okw).

  Lemma post_nonneg d s evs t k : Forall ok evs -> 0 <= post d s evs t k.
  Proof.
    intros Hev. unfold posterior. apply Rsum_nonneg. intros y Hy. apply in_map_iff in Hy as (p & <- & _).
    destruct (Nat.eqb _ k); [|lra]. left. apply Rmult_lt_0_compat; [apply pow_lt; lra|].
    eapply part_prob_pos; eauto.
  Qed.

  (** The score is at least the posterior weight, and at most [2^d] times it. *)
  Lemma post_le_score d : forall s evs w j, Forall ok evs -> 0 <= w -> (length evs <= 2 ^ (m + d))%nat ->
    post d s evs (length evs - 1) j = 0 \/
    exists v, In (j, v) (scores d s evs w) /\ w * post d s evs (length evs - 1) j <= v.
  Proof.
    induction d as [|d IH]; intros s evs w j Hev Hw Hl.
    - rewrite post_0. cbn [open_scores]. destruct (Nat.eqb_spec s j) as [<-|H]; [|left; reflexivity].
      right. eexists. split; [left; reflexivity|lra].
    - rewrite post_S. cbn [open_scores]. pose proof (pow_pos (m + d)) as Hpow.
      assert (Hb : 0 < seq_prob M (mk s) evs) by (eapply steps_seq_prob_pos; eauto).
      destruct (Nat.leb_spec (length evs) (2 ^ (m + d))) as [Hle|Hgt].
      + rewrite (proj2 (Nat.ltb_lt (length evs - 1) (2 ^ (m + d)))) by lia.
        rewrite firstn_all2, skipn_all2, ptw_prob_nil, Rmult_1_r by exact Hle.
        destruct (IH s evs w j Hev Hw Hle) as [E|(v & Hi & Hv)].
        * rewrite E. destruct (Nat.eqb_spec s j) as [<-|H]; [|left; lra].
          (* the start is always scored *)
          right. assert (Hsc : exists v, In (s, v) (scores d s evs w) /\ w * seq_prob M (mk s) evs <= v).
          { clear -d. revert s evs w. induction d as [|d IHd]; intros s evs w; cbn [open_scores].
            - eexists. split; [left; reflexivity|lra].
            - destruct (_ <=? _)%nat; [apply IHd|]. eexists. split; [left; reflexivity|lra]. }
          destruct Hsc as (v & Hi & Hv). exists v. split; [exact Hi|]. nra.
        * right. destruct (Nat.eqb_spec s j) as [<-|H].
          { assert (Hsc : forall v, In (s, v) (scores d s evs w) -> v = w * seq_prob M (mk s) evs).
            { clear -d. revert s evs w. induction d as [|d IHd]; intros s evs w v; cbn [open_scores].
              - intros [[= <-]|[]]. reflexivity.
              - destruct (_ <=? _)%nat; [apply IHd|]. intros [[= <-]|H]; [reflexivity|]. apply scores_low in H. pose proof (pow_pos (m + d)). lia. }
            exists v. split; [exact Hi|]. rewrite (Hsc v Hi) in *. lra. }
          exists v. split; [exact Hi|]. pose proof (post_nonneg d s evs (length evs - 1) j Hev). nra.
      + replace (length evs - 1 <? 2 ^ (m + d))%nat with false by (symmetry; apply Nat.ltb_ge; lia).
        set (half := (2 ^ (m + d))%nat) in *.
        assert (Hpl : 0 < P d s (firstn half evs)) by (eapply ptw_prob_pos; eauto using Forall_firstn).
        assert (Hlr : length (skipn half evs) = (length evs - half)%nat) by apply skipn_length.
        replace (length evs - 1 - half)%nat with (length (skipn half evs) - 1)%nat by lia.
        destruct (Nat.eqb_spec s j) as [<-|H].
        * rewrite (post_low d (s + half)) by lia. right. eexists. split; [left; reflexivity|]. nra.
        * destruct (IH (s + half)%nat (skipn half evs) (w * (/ 2 * P d s (firstn half evs))) j) as [E|(v & Hi & Hv)].
          { apply Forall_skipn, Hev. } { nra. }
          { rewrite Hlr. rewrite <- plus_n_Sm in Hl. cbn [Nat.pow] in Hl. fold half in Hl. lia. }
          { left. rewrite E. lra. }
          { right. exists v. split; [right; exact Hi|]. nra. }
  Qed.

  Lemma score_le_post d : forall s evs w k v, Forall ok evs -> 0 <= w -> (length evs <= 2 ^ (m + d))%nat ->
    In (k, v) (scores d s evs w) -> v <= w * (2 ^ d * post d s evs (length evs - 1) k).
  Proof.
    induction d as [|d IH]; intros s evs w k v Hev Hw Hl.
    - rewrite post_0. cbn [open_scores]. intros [[= <- <-]|[]]. rewrite Nat.eqb_refl, pow_O. lra.
    - rewrite post_S. cbn [open_scores]. pose proof (pow_pos (m + d)) as Hpow.
      assert (Hb : 0 < seq_prob M (mk s) evs) by (eapply steps_seq_prob_pos; eauto).
      assert (H2 : 1 <= 2 ^ d) by (apply pow_R1_Rle; lra). cbn [pow].
      destruct (Nat.leb_spec (length evs) (2 ^ (m + d))) as [Hle|Hgt].
      + rewrite (proj2 (Nat.ltb_lt (length evs - 1) (2 ^ (m + d)))) by lia.
        rewrite firstn_all2, skipn_all2, ptw_prob_nil, Rmult_1_r by exact Hle. intros Hi.
        specialize (IH s evs w k v Hev Hw Hle Hi). set (x := post d s evs (length evs - 1) k) in *.
        assert (Hd : 0 <= w * (2 * 2 ^ d * (if Nat.eqb s k then / 2 * seq_prob M (mk s) evs else 0))).
        { apply Rmult_le_pos; [exact Hw|]. apply Rmult_le_pos; [lra|]. destruct (Nat.eqb s k); lra. }
        lra.
      + replace (length evs - 1 <? 2 ^ (m + d))%nat with false by (symmetry; apply Nat.ltb_ge; lia).
        set (half := (2 ^ (m + d))%nat) in *.
        assert (Hpl : 0 < P d s (firstn half evs)) by (eapply ptw_prob_pos; eauto using Forall_firstn).
        assert (Hlr : length (skipn half evs) = (length evs - half)%nat) by apply skipn_length.
        replace (length evs - 1 - half)%nat with (length (skipn half evs) - 1)%nat by lia.
        intros [[= <- <-]|Hi].
        * rewrite Nat.eqb_refl, (post_low d (s + half)) by lia. apply Rmult_le_compat_l; [exact Hw|].
          replace (2 * 2 ^ d * (/ 2 * seq_prob M (mk s) evs + / 2 * (P d s (firstn half evs) * 0))) with (2 ^ d * seq_prob M (mk s) evs) by field.
          nra.
        * pose proof (scores_low _ _ _ _ _ _ Hi) as Hk.
          apply IH in Hi; [|apply Forall_skipn, Hev|nra|rewrite Hlr; rewrite <- plus_n_Sm in Hl; cbn [Nat.pow] in Hl; fold half in Hl; lia].
          destruct (Nat.eqb_spec s k) as [E|_]; [lia|]. set (x := post d (s + half) (skipn half evs) (length (skipn half evs) - 1) k) in *.
          assert (Hx : 0 <= x) by (apply post_nonneg, Forall_skipn, Hev). set (y := w * P d s (firstn half evs) * 2 ^ d * x).
          assert (Hy : 0 <= y) by (unfold y; repeat apply Rmult_le_pos; lra).
          replace (w * (/ 2 * P d s (firstn half evs)) * (2 ^ d * x)) with (/ 2 * y) in Hi by (unfold y; ring).
          replace (w * (2 * 2 ^ d * (0 + / 2 * (P d s (firstn half evs) * x)))) with y by (unfold y; field). lra.
  Qed.

  Lemma best_within d evs k w : Forall ok evs -> (length evs <= 2 ^ (m + d))%nat ->
    In (k, w) (scores d 0 evs 1) -> (forall j v, In (j, v) (scores d 0 evs 1) -> v <= w) ->
    forall j, post d 0 evs (length evs - 1) j <= 2 ^ d * post d 0 evs (length evs - 1) k.
  Proof.
    intros Hev Hl Hi Hb j. pose proof (score_le_post d 0 evs 1 k w Hev ltac:(lra) Hl Hi) as H1.
    pose proof (post_nonneg d 0 evs (length evs - 1) k Hev) as H0. assert (H2 : 1 <= 2 ^ d) by (apply pow_R1_Rle; lra).
    destruct (post_le_score d 0 evs 1 j Hev ltac:(lra) Hl) as [E|(v & Hv & Hle)]; [rewrite E; nra|].
    specialize (Hb j v Hv). lra.
  Qed.

  (** ** model.py *)
  Lemma tree_best D n evs : Forall ok evs -> prep M mk m (levels m (length evs)) n 0 evs -> (length evs <= 2 ^ (m + D))%nat ->
    exists x xs, pnode_scores n 0 = x :: xs /\
    exists k w lk, run M (mk k) (skipn k evs) = Ok (snd (max_score x xs), lk) /\ In (k, w) (scores D 0 evs 1) /\
      (forall j v, In (j, v) (scores D 0 evs 1) -> v <= w) /\
      forall j, post D 0 evs (length evs - 1) j <= 2 ^ D * post D 0 evs (length evs - 1) k.
  Proof.
    intros Hev Hp HD. pose proof (prep_scores n _ 0 evs 0 Hp) as HF. rewrite exp_0 in HF.
    rewrite <- (scores_skip _ D) in HF; [|apply levels_le, HD|apply levels_fit].
    destruct (pnode_scores n 0) as [|x xs] eqn:E; [destruct n; discriminate|]. exists x, xs. split; [reflexivity|].
    destruct (best_scored _ _ _ _ HF) as (k & w & lk & Hr & Hi & Hb). exists k, w, lk. split; [exact Hr|]. split; [exact Hi|].
    split; [exact Hb|]. eapply best_within; eauto.
  Qed.

  Lemma ptw_map_best evs s l : Forall ok evs ->
    feed (fun t => ptw_update M m (mk t)) 0 (ptw_init m (mk 0%nat)) evs = Ok (s, l) ->
    let d := levels m (length evs) in
    exists k w lk, run M (mk k) (skipn k evs) = Ok (ptw_map s, lk) /\ In (k, w) (scores d 0 evs 1) /\
      (forall j v, In (j, v) (scores d 0 evs 1) -> v <= w) /\
      forall j, post d 0 evs (length evs - 1) j <= 2 ^ d * post d 0 evs (length evs - 1) k.
  Proof.
    intros Hev Hf d. destruct (feed_rep M A okh okw Inv HS mk Hmk m evs s l Hev Hf) as ((Hp & _) & _).
    destruct (tree_best d (pt_tree s) evs Hev Hp (levels_fit m _)) as (x & xs & E & k & w & lk & H).
    exists k, w, lk. unfold ptw_map. rewrite E. exact H.
  Qed.

  Lemma ptwf_map_best len evs s l : Forall ok evs -> (length evs <= len)%nat ->
    feed (fun t => ptwf_update M m (mk t)) 0 (ptwf_init m len (mk 0%nat)) evs = Ok (s, l) ->
    let d := (fixed_height_of len - m)%nat in
    exists k w lk, run M (mk k) (skipn k evs) = Ok (ptwf_map s, lk) /\ In (k, w) (scores d 0 evs 1) /\
      (forall j v, In (j, v) (scores d 0 evs 1) -> v <= w) /\
      forall j, post d 0 evs (length evs - 1) j <= 2 ^ d * post d 0 evs (length evs - 1) k.
  Proof.
    intros Hev Hl Hf d. pose proof (len_fixed len _ Hl) as Hfit. destruct (ptwf_feed M A okh okw Inv HS mk Hmk m len evs Hev Hfit) as (s' & Hf' & (Hp & _) & _).
    rewrite Hf in Hf'. injection Hf' as <- _.
    destruct (tree_best d (pf_tree s) evs Hev Hp) as (x & xs & E & k & w & lk & H).
    { unfold d. etransitivity; [exact Hfit|]. apply Nat.pow_le_mono_r; lia. }
    exists k, w, lk. unfold ptwf_map. rewrite E. exact H.
  Qed.
End map.
