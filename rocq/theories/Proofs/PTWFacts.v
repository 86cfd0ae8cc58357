(** The PTW spine represents the partition tree weighting recursion. *)
From Coq Require Import Lra.
From Verif Require Import Model.PTW Spec.PTWSpec Proofs.RealFacts Proofs.PyFacts Proofs.ProbFacts.
Open Scope R_scope.

Lemma complete_spec {S} (n : pnode S) : partition_is_complete n = (2 ^ p_height n <=? p_count n)%nat.
Proof.
  unfold partition_is_complete. rewrite Nat.shiftr_div_pow2.
  assert (2 ^ p_height n <> 0)%nat by (apply Nat.pow_nonzero; lia).
  destruct (Nat.leb_spec (2 ^ p_height n) (p_count n)) as [H1|H1].
  - apply Nat.ltb_lt. apply Nat.div_str_pos. lia.
  - rewrite Nat.div_small by lia. reflexivity.
Qed.

Lemma feed_snoc {T} (upd : nat -> T -> Z -> list Z -> R -> result (T * R)) t s evs e s1 l1 s2 l2 :
  feed upd t s evs = Ok (s1, l1) ->
  upd (t + length evs)%nat s1 (ev_sym e) (ev_hist e) (ev_wt e) = Ok (s2, l2) ->
  feed upd t s (evs ++ [e]) = Ok (s2, l1 + l2).
Proof.
  revert t s l1; induction evs as [|x evs IH]; intros t s l1 H1 H2; cbn [feed app length] in *.
  - injection H1 as -> <-. rewrite Nat.add_0_r in H2. rewrite H2. cbn [bind]. do 2 f_equal. lra.
  - destruct (upd t s _ _ _) as [[s3 l3]|]; cbn [bind] in *; [|discriminate].
    destruct (feed upd (S t) s3 evs) as [[s4 l4]|] eqn:E; cbn [bind] in *; [|discriminate].
    injection H1 as <- <-. rewrite (IH _ _ _ E) by (rewrite <- H2; f_equal; lia). cbn [bind].
    do 2 f_equal. lra.
Qed.

Lemma feed_const {S} (M : model S) t s evs : feed (fun _ => m_update M) t s evs = run M s evs.
Proof.
  revert t s; induction evs as [|e evs IH]; intros t s; cbn [feed run]; [reflexivity|].
  destruct (m_update M s _ _ _) as [[s1 l]|]; cbn [bind]; [|reflexivity]. rewrite IH. reflexivity.
Qed.

(** ** Heights *)
Lemma levels_le m n d : (n <= 2 ^ (m + d))%nat <-> (levels m n <= d)%nat.
Proof.
  unfold levels. destruct (Nat.le_gt_cases n 1) as [H|H].
  - assert (Nat.log2_up n = 0)%nat by (apply Nat.log2_up_eqn0; lia).
    assert (2 ^ (m + d) <> 0)%nat by (apply Nat.pow_nonzero; lia). lia.
  - rewrite Nat.log2_up_le_pow2 by lia. lia.
Qed.

Lemma levels_fit m n : (n <= 2 ^ (m + levels m n))%nat.
Proof. apply levels_le. lia. Qed.

Lemma levels_mono m a b : (a <= b)%nat -> (levels m a <= levels m b)%nat.
Proof. intros H. apply levels_le. pose proof (levels_fit m b). lia. Qed.

Lemma levels_unique m n d : (n <= 2 ^ (m + d))%nat -> (d = 0 \/ 2 ^ (m + (d - 1)) < n)%nat -> d = levels m n.
Proof.
  intros H1 H2. apply levels_le in H1. destruct H2 as [->|H2]; [lia|].
  assert (~ (levels m n <= d - 1))%nat by (rewrite <- levels_le; lia). lia.
Qed.

Lemma pow_pos k : (0 < 2 ^ k)%nat.
Proof. assert (2 ^ k <> 0)%nat by (apply Nat.pow_nonzero; lia). lia. Qed.
Lemma Forall_firstn {X} (Q : X -> Prop) k l : Forall Q l -> Forall Q (firstn k l).
Proof.
  intros H. rewrite <- (firstn_skipn k l) in H. apply Forall_app in H. tauto. Qed.
Lemma Forall_skipn {X} (Q : X -> Prop) k l : Forall Q l -> Forall Q (skipn k l).
Proof.
  intros H. rewrite <- (firstn_skipn k l) in H. apply Forall_app in H. tauto. Qed.
Lemma firstn_snoc {X} k (l : list X) x : (k <= length l)%nat -> firstn k (l ++ [x]) = firstn k l.
Proof. intros H. rewrite firstn_app. replace (k - length l)%nat with 0%nat by lia. apply app_nil_r. Qed.
Lemma skipn_snoc {X} k (l : list X) x : (k <= length l)%nat -> skipn k (l ++ [x]) = skipn k l ++ [x].
Proof. intros H. rewrite skipn_app. replace (k - length l)%nat with 0%nat by lia. reflexivity. Qed.

Definition pnode_rec_ind {S} (Q : pnode S -> Prop)
  (H : forall b h c x y z r, match r with Some r' => Q r' | None => True end -> Q (PNode b h c x y z r)) :
  forall n, Q n :=
  fix go n := match n with
    | PNode b h c x y z r => H b h c x y z r (match r with Some r' => go r' | None => I end)
    end.

Section base.
  Context {S : Type} (M : model S).
  Variable mk : nat -> S.
  Variable m : nat.
  Notation P := (ptw_prob M mk m).

  Lemma ptw_prob_nil d s : P d s [] = 1.
  Proof.
    revert s; induction d as [|d IH]; intros s; cbn [ptw_prob seq_prob]; [reflexivity|].
    rewrite firstn_nil, skipn_nil, !IH. lra.
  Qed.

  (** A short segment: one level more is one more averaging with the base model. *)
  Lemma ptw_prob_short d s evs : (length evs <= 2 ^ (m + d))%nat ->
    P (Datatypes.S d) s evs = / 2 * seq_prob M (mk s) evs + / 2 * P d s evs.
  Proof.
    intros H. cbn [ptw_prob]. rewrite firstn_all2, skipn_all2 by exact H. rewrite ptw_prob_nil. lra.
  Qed.

  (** The node [n], created at time [s], after [evs]; its height is [m + d]. *)
  Fixpoint prep (d : nat) (n : pnode S) (s : nat) (evs : list event) {struct n} : Prop :=
    let '(PNode base height count blp llp lp rch) := n in
    run M (mk s) evs = Ok (base, blp) /\ height = (m + d)%nat /\ count = length evs /\
    (count <= 2 ^ height)%nat /\ exp lp = P d s evs /\
    match rch with
    | None => d = O
    | Some r => exists d' dr, d = Datatypes.S d' /\ (dr <= d')%nat /\ (2 ^ (m + d') < count)%nat /\
                exp llp = P d' s (firstn (2 ^ (m + d')) evs) /\
                prep dr r (s + 2 ^ (m + d')) (skipn (2 ^ (m + d')) evs)
    end.

  Lemma prep_new t : prep O (new_pnode m (mk t)) t [].
  Proof.
    cbn. rewrite exp_0. split; [reflexivity|]. split; [lia|]. split; [reflexivity|].
    split; [lia|]. split; reflexivity.
  Qed.

  Lemma prep_fields d n s evs : prep d n s evs ->
    run M (mk s) evs = Ok (p_base n, p_blp n) /\ p_height n = (m + d)%nat /\ p_count n = length evs /\
    (length evs <= 2 ^ (m + d))%nat /\ exp (p_lp n) = P d s evs.
  Proof. destruct n as [base height count blp llp lp rch]; cbn. intros (H1 & -> & -> & H4 & H5 & H6). tauto. Qed.

  Lemma prep_blp d n s evs : prep d n s evs -> exp (p_blp n) = seq_prob M (mk s) evs.
  Proof. intros H. apply prep_fields in H as (H & _). symmetry. eapply seq_prob_run; eauto. Qed.

  Lemma lift_exp k : forall d b x s evs, (length evs <= 2 ^ (m + d))%nat ->
    exp b = seq_prob M (mk s) evs -> exp x = P d s evs -> exp (lift k b x) = P (k + d) s evs.
  Proof.
    induction k as [|k IH]; intros d b x s evs Hl Hb Hx; cbn [lift]; [exact Hx|].
    replace (Datatypes.S k + d)%nat with (k + Datatypes.S d)%nat by lia.
    apply IH; [|exact Hb|].
    - etransitivity; [exact Hl|]. apply Nat.pow_le_mono_r; lia.
    - rewrite mix_exp, Hb, Hx, ptw_prob_short by exact Hl. reflexivity.
  Qed.
End base.

Section facts.
  Context {S : Type} (M : model S).
  Context (A : list Z) (okh : list Z -> Prop) (okw : R -> Prop) (Inv : S -> Prop).
  Hypothesis HS : steps M A okh okw Inv.
  Variable mk : nat -> S.
  Hypothesis Hmk : forall t, Inv (mk t).
  Variable m : nat.

  Notation ok := (ok_event A okh okw).
  Notation P := (ptw_prob M mk m).
  Notation prep := (prep M mk m).




  Lemma ptw_prob_pos d s evs : Forall ok evs -> 0 < P d s evs.
  Proof.
    revert s evs; induction d as [|d IH]; intros s evs H; cbn [ptw_prob].
    - eapply steps_seq_prob_pos; eauto.
    - pose proof (steps_seq_prob_pos M A okh okw Inv HS (mk s) evs (Hmk s) H).
      assert (0 < P d s (firstn (2 ^ (m + d)) evs)) by (apply IH, Forall_firstn, H).
      assert (0 < P d (s + 2 ^ (m + d)) (skipn (2 ^ (m + d)) evs)) by (apply IH, Forall_skipn, H).
      nra.
  Qed.







  Lemma run_inv s evs b l : Forall ok evs -> run M (mk s) evs = Ok (b, l) -> Inv b.
  Proof.
    intros H E. destruct (steps_run M A okh okw Inv HS (mk s) evs (Hmk s) H) as (s' & l' & E' & Hi).
    congruence.
  Qed.


  (** One update: within the node's length, and at promotion. *)
  Lemma pnode_update_prep : forall n d s evs e, prep d n s evs -> Forall ok evs -> ok e ->
    exists n', pnode_update M m (mk (s + length evs)) n (ev_sym e) (ev_hist e) (ev_wt e) = Ok n' /\
      prep (if (length evs <? 2 ^ (m + d))%nat then d else Datatypes.S d) n' s (evs ++ [e]).
  Proof.
    induction n as [base height count blp llp lp rch IH] using pnode_rec_ind. intros d s evs e Hp Hev He.
    pose proof Hp as (Hrun & -> & -> & Hc & Hlp & Hr).
    pose proof (run_inv s evs base blp Hev Hrun) as Hbase.
    destruct He as (Ha & Hh & Hw).
    destruct (HS base _ _ _ Hbase Ha Hh Hw) as (base' & l & Hu & _ & _).
    pose proof (run_snoc M (mk s) evs e base blp base' l Hrun Hu) as Hrun'.
    pose proof (seq_prob_run M (mk s) (evs ++ [e]) base' _ Hrun') as Hseq'.
    cbn [pnode_update]. rewrite complete_spec. cbn [p_height p_count].
    destruct (Nat.leb_spec (2 ^ (m + d)) (length evs)) as [Hfull|Hfull].
    - (* promotion *)
      assert (Hlen : length evs = (2 ^ (m + d))%nat) by lia.
      replace (length evs <? 2 ^ (m + d))%nat with false by (symmetry; apply Nat.ltb_ge; lia).
      rewrite Hu. cbn [bind].
      destruct (HS (mk (s + length evs)) _ _ _ (Hmk _) Ha Hh Hw) as (rb & rl & Hru & _ & _).
      rewrite Hru. cbn [bind]. eexists. split; [reflexivity|].
      assert (Hrr : run M (mk (s + length evs)) [e] = Ok (rb, 0 + rl)).
      { cbn [run]. rewrite Hru. cbn [bind]. do 2 f_equal. lra. }
      assert (Hfirst : firstn (2 ^ (m + d)) (evs ++ [e]) = evs).
      { rewrite firstn_snoc by lia. apply firstn_all2. lia. }
      assert (Hskip : skipn (2 ^ (m + d)) (evs ++ [e]) = [e]).
      { rewrite skipn_snoc by lia. rewrite skipn_all2 by lia. reflexivity. }
      assert (Hrl : exp (lift (Datatypes.S (m + d) - m - 1) (0 + rl) (0 + rl)) = P d (s + 2 ^ (m + d)) [e]).
      { replace (Datatypes.S (m + d) - m - 1)%nat with d by lia.
        rewrite <- Hlen. replace d with (d + 0)%nat at 2 by lia.
        assert (Hs1 : exp (0 + rl) = seq_prob M (mk (s + length evs)) [e])
          by (symmetry; exact (seq_prob_run M _ _ _ _ Hrr)).
        apply lift_exp; [|exact Hs1|exact Hs1].
        cbn [length]. pose proof (pow_pos (m + 0)). lia. }
      cbn [PTWFacts.prep]. rewrite app_length. cbn [length].
      split; [exact Hrun'|]. split; [lia|]. split; [lia|]. split.
      { rewrite Hlen. cbn [Nat.pow]. pose proof (pow_pos (m + d)). lia. }
      split.
      { rewrite mix_exp, (exp_plus lp), Hrl, Hlp, <- Hseq'. cbn [ptw_prob]. rewrite Hfirst, Hskip. reflexivity. }
      exists d, O. split; [reflexivity|]. split; [lia|]. split; [lia|].
      split. { rewrite Hfirst. exact Hlp. }
      rewrite Hskip. rewrite <- Hlen. cbn [length].
      split; [exact Hrr|]. split; [lia|]. split; [reflexivity|].
      split; [pose proof (pow_pos m); lia|]. split; [|reflexivity].
      cbn [ptw_prob]. symmetry. exact (seq_prob_run M _ _ _ _ Hrr).
    - replace (length evs <? 2 ^ (m + d))%nat with true by (symmetry; apply Nat.ltb_lt; lia).
      rewrite Hu. cbn [bind]. destruct rch as [r|].
      + destruct Hr as (d' & dr & -> & Hdr & Hlt & Hllp & Hpr).
        assert (Hlr : length (skipn (2 ^ (m + d')) evs) = (length evs - 2 ^ (m + d'))%nat) by apply skipn_length.
        destruct (IH dr _ _ e Hpr (Forall_skipn _ _ _ Hev) (conj Ha (conj Hh Hw))) as (r' & Hru & Hpr').
        rewrite Hlr in Hru, Hpr'.
        replace (s + 2 ^ (m + d') + (length evs - 2 ^ (m + d')))%nat with (s + length evs)%nat in Hru by lia.
        rewrite Hru. cbn [bind]. eexists. split; [reflexivity|].
        set (dr' := if (length evs - 2 ^ (m + d') <? 2 ^ (m + dr))%nat then dr else Datatypes.S dr) in *.
        assert (Hpow : (2 ^ (m + Datatypes.S d') = 2 * 2 ^ (m + d'))%nat)
          by (replace (m + Datatypes.S d')%nat with (Datatypes.S (m + d')) by lia; reflexivity).
        assert (Hdr' : (dr' <= d')%nat).
        { unfold dr'. destruct (Nat.ltb_spec (length evs - 2 ^ (m + d')) (2 ^ (m + dr))) as [Hx|Hx]; [lia|].
          assert (dr <> d') by (intros ->; lia). lia. }
        pose proof (prep_fields _ _ _ _ _ _ _ Hpr') as (Hf1 & Hf2 & Hf3 & Hf4 & Hf5).
        pose proof (prep_blp _ _ _ _ _ _ _ Hpr') as Hfb.
        assert (Hrl : exp (lift (m + Datatypes.S d' - p_height r' - 1) (p_blp r') (p_lp r')) =
                      P d' (s + 2 ^ (m + d')) (skipn (2 ^ (m + d')) evs ++ [e])).
        { rewrite Hf2. replace (m + Datatypes.S d' - (m + dr') - 1)%nat with (d' - dr')%nat by lia.
          replace d' with ((d' - dr') + dr')%nat at 2 by lia. apply lift_exp; assumption. }
        cbn [PTWFacts.prep]. rewrite app_length. cbn [length].
        split; [exact Hrun'|]. split; [reflexivity|]. split; [reflexivity|]. split; [lia|].
        split.
        { rewrite mix_exp, (exp_plus llp), Hrl, Hllp, <- Hseq'. cbn [ptw_prob].
          rewrite firstn_snoc, skipn_snoc by lia. reflexivity. }
        exists d', dr'. split; [reflexivity|]. split; [exact Hdr'|]. split; [lia|].
        rewrite firstn_snoc, skipn_snoc by lia. split; [exact Hllp|exact Hpr'].
      + subst d. eexists. split; [reflexivity|]. cbn [PTWFacts.prep]. rewrite app_length. cbn [length].
        split; [exact Hrun'|]. split; [reflexivity|]. split; [reflexivity|]. split; [lia|].
        split; [cbn [ptw_prob]; symmetry; exact Hseq'|reflexivity].
  Qed.
End facts.
