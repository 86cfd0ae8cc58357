From Coq Require Import Lra.
From Verif Require Import Spec.Sizes.
From Verif Require Import Proofs.PyFacts Proofs.ProbFacts Proofs.PTWFacts Proofs.CtwPTWFacts Proofs.FMNFacts Proofs.StoreFacts Proofs.UniformFacts.
Open Scope nat_scope.

(** ** Ones *)
Definition ones_to (k n : nat) : nat := length (filter (Nat.testbit n) (seq 0 k)).

Lemma bit_high n i : n < 2 ^ i -> Nat.testbit n i = false.
Proof.
  intros H. rewrite Nat.testbit_eqb, Nat.div_small by exact H. reflexivity.
Qed.

Lemma ones_to_more k n j : n < 2 ^ k -> ones_to (k + j) n = ones_to k n.
Proof.
  intros H. unfold ones_to. rewrite seq_app, filter_app, app_length.
  replace (length (filter (Nat.testbit n) (seq (0 + k) j))) with 0; [lia|].
  rewrite (proj2 (filter_ext_in_iff (Nat.testbit n) (fun _ => false) _)).
  - clear. induction (seq (0 + k) j); cbn; auto.
  - intros i Hi. apply in_seq in Hi. apply bit_high.
    apply Nat.lt_le_trans with (2 ^ k); [exact H|]. apply Nat.pow_le_mono_r; lia.
Qed.

Lemma ones_any k n : n < 2 ^ k -> ones n = ones_to k n.
Proof.
  intros H. change (ones n) with (ones_to n n).
  assert (Hn : n < 2 ^ n) by (apply Nat.pow_gt_lin_r; lia).
  rewrite <- (ones_to_more n n k Hn), <- (ones_to_more k n n H). f_equal. lia.
Qed.

Lemma ones_0 : ones 0 = 0.
Proof. reflexivity. Qed.

Lemma ones_top k x : x < 2 ^ k -> ones (2 ^ k + x) = S (ones x).
Proof.
  intros H. rewrite (ones_any (k + 1)) by (rewrite Nat.pow_add_r; cbn; lia).
  rewrite (ones_any k x H). unfold ones_to. rewrite seq_app, filter_app, app_length. cbn [seq filter Nat.add].
  replace (Nat.testbit (2 ^ k + x) k) with true.
  2:{ symmetry. rewrite Nat.testbit_eqb. replace (2 ^ k + x) with (x + 1 * 2 ^ k) by lia.
      rewrite Nat.div_add by (pose proof (pow_pos k); lia). rewrite Nat.div_small by exact H. reflexivity. }
  cbn [length]. rewrite Nat.add_comm. cbn. f_equal. f_equal. apply filter_ext_in.
  intros i Hi. apply in_seq in Hi. rewrite !Nat.testbit_eqb.
  replace (2 ^ k + x) with (x + 2 ^ (k - i - 1) * 2 * 2 ^ i).
  2:{ rewrite <- Nat.mul_assoc. change (2 * 2 ^ i) with (2 ^ S i). rewrite <- Nat.pow_add_r.
      replace (k - i - 1 + S i) with k by lia. lia. }
  rewrite Nat.div_add by (pose proof (pow_pos i); lia). rewrite Nat.mod_add by lia. reflexivity.
Qed.

Lemma ones_log n : ones n <= Nat.log2 n + 1.
Proof.
  destruct (Nat.eq_dec n 0) as [->|H0]; [cbn; lia|].
  rewrite (ones_any (Nat.log2 n + 1)).
  2:{ replace (Nat.log2 n + 1) with (S (Nat.log2 n)) by lia. apply Nat.log2_spec. lia. }
  unfold ones_to.
  assert (Hf : forall l, length (filter (Nat.testbit n) l) <= length l).
  { induction l as [|a l IH]; cbn; [lia|]. destruct (Nat.testbit n a); cbn; lia. }
  specialize (Hf (seq 0 (Nat.log2 n + 1))). rewrite seq_length in Hf. exact Hf.
Qed.

(** ** The tree of PTW *)
Section ptw.
  Context {S : Type} (M : model S) (m : nat).

  Fixpoint shape (d : nat) (n : pnode S) (c : nat) {struct n} : Prop :=
    let '(PNode base height count blp llp lp rch) := n in
    height = m + d /\ count = c /\ c <= 2 ^ height /\
    match rch with
    | None => d = 0
    | Some r => exists d' dr, d = Datatypes.S d' /\ dr <= d' /\ 2 ^ (m + d') < c /\ shape dr r (c - 2 ^ (m + d'))
    end.

  Lemma shape_new fresh : shape 0 (new_pnode m fresh) 0.
  Proof. cbn. repeat split; lia. Qed.

  Lemma shape_count : forall n d c, shape d n c -> length (pbases n) = 1 + ones ((c - 1) / 2 ^ m).
  Proof.
    induction n as [base height count blp llp lp rch IH] using pnode_rec_ind. intros d c (-> & -> & Hc & Hr).
    destruct rch as [r|].
    - destruct Hr as (d' & dr & -> & Hd & Hlt & Hs). cbn [pbases length]. rewrite (IH _ _ Hs).
      set (x := c - 2 ^ (m + d')) in *. pose proof (pow_pos m).
      replace (c - 1) with (x - 1 + 2 ^ d' * 2 ^ m) by (unfold x; rewrite <- Nat.pow_add_r, (Nat.add_comm d' m); lia).
      rewrite Nat.div_add by lia. rewrite (Nat.add_comm _ (2 ^ d')), ones_top; [lia|].
      apply Nat.div_lt_upper_bound; [lia|]. rewrite <- Nat.pow_add_r.
      assert (2 ^ (m + Datatypes.S d') = 2 * 2 ^ (m + d')) by (replace (m + Datatypes.S d') with (Datatypes.S (m + d')) by lia; reflexivity).
      unfold x. lia.
    - subst d. cbn [pbases length]. rewrite Nat.add_0_r in Hc. rewrite Nat.div_small; [reflexivity|]. pose proof (pow_pos m). lia.
  Qed.

  Lemma shape_update : forall n d c fresh a h w n', shape d n c -> pnode_update M m fresh n a h w = Ok n' ->
    shape (if c <? 2 ^ (m + d) then d else Datatypes.S d) n' (c + 1).
  Proof.
    induction n as [base height count blp llp lp rch IH] using pnode_rec_ind.
    intros d c fresh a h w n' Hs. pose proof Hs as (-> & -> & Hc & Hr).
    cbn [pnode_update]. rewrite complete_spec. cbn [p_height p_count].
    destruct (Nat.leb_spec (2 ^ (m + d)) c) as [Hfull|Hfull].
    - replace (c <? 2 ^ (m + d)) with false by (symmetry; apply Nat.ltb_ge; lia).
      destruct (m_update M base a h w) as [[b' l]|]; cbn [bind]; [|discriminate].
      destruct (m_update M fresh a h w) as [[rb rl]|]; cbn [bind]; [|discriminate].
      intros H. injection H as <-. cbn [shape]. split; [lia|]. split; [lia|].
      assert (2 ^ Datatypes.S (m + d) = 2 * 2 ^ (m + d)) as -> by reflexivity. pose proof (pow_pos (m + d)). split; [lia|].
      exists d, 0. split; [reflexivity|]. split; [lia|]. split; [lia|]. split; [lia|]. split; [lia|]. split; [pose proof (pow_pos m); lia|reflexivity].
    - replace (c <? 2 ^ (m + d)) with true by (symmetry; apply Nat.ltb_lt; lia).
      destruct (m_update M base a h w) as [[b' l]|]; cbn [bind]; [|discriminate].
      destruct rch as [r|].
      + destruct Hr as (d' & dr & -> & Hd & Hlt & Hr).
        destruct (pnode_update M m fresh r a h w) as [r'|] eqn:Eu; cbn [bind]; [|discriminate].
        intros H. injection H as <-. specialize (IH _ _ _ _ _ _ _ Hr Eu).
        cbn [shape]. split; [reflexivity|]. split; [reflexivity|]. split; [lia|].
        exists d', (if c - 2 ^ (m + d') <? 2 ^ (m + dr) then dr else Datatypes.S dr). split; [reflexivity|]. split.
        { destruct (Nat.ltb_spec (c - 2 ^ (m + d')) (2 ^ (m + dr))); [lia|].
          assert (2 ^ (m + Datatypes.S d') = 2 * 2 ^ (m + d')) by (replace (m + Datatypes.S d') with (Datatypes.S (m + d')) by lia; reflexivity).
          assert (dr <> d') by (intros ->; lia). lia. }
        split; [lia|]. replace (c + 1 - 2 ^ (m + d')) with (c - 2 ^ (m + d') + 1) by lia. exact IH.
      + intros H. injection H as <-. cbn [shape]. repeat split; try lia; exact Hr.
  Qed.

  (** Every base model afterwards is one that was there before, or a new one, updated once. *)
  Lemma bases_update : forall n fresh a h w n', pnode_update M m fresh n a h w = Ok n' ->
    exists k new, (new = [] \/ new = [fresh]) /\ k <= length (pbases n) /\
      Forall2 (fun b b' => exists l, m_update M b a h w = Ok (b', l)) (firstn k (pbases n) ++ new) (pbases n').
  Proof.
    induction n as [base height count blp llp lp rch IH] using pnode_rec_ind. intros fresh a h w n'.
    cbn [pnode_update]. destruct (partition_is_complete _).
    - destruct (m_update M base a h w) as [[b' l]|] eqn:E1; cbn [bind]; [|discriminate].
      destruct (m_update M fresh a h w) as [[rb rl]|] eqn:E2; cbn [bind]; [|discriminate].
      intros H. injection H as <-. exists 1, [fresh]. split; [auto|]. split; [cbn; lia|].
      cbn [pbases firstn app]. constructor; [eauto|]. constructor; [eauto|constructor].
    - destruct (m_update M base a h w) as [[b' l]|] eqn:E1; cbn [bind]; [|discriminate]. destruct rch as [r|].
      + destruct (pnode_update M m fresh r a h w) as [r'|] eqn:Eu; cbn [bind]; [|discriminate].
        intros H. injection H as <-. destruct (IH _ _ _ _ _ Eu) as (k & new & Hn & Hk & HF).
        exists (Datatypes.S k), new. split; [exact Hn|]. cbn [pbases length firstn app]. split; [lia|].
        constructor; [eauto|exact HF].
      + intros H. injection H as <-. exists 1, []. split; [auto|]. cbn. split; [lia|]. constructor; [eauto|constructor].
  Qed.

  Definition shaped (n : pnode S) (c : nat) : Prop := exists d, shape d n c.

  Lemma shaped_update n c fresh a h w n' : shaped n c -> pnode_update M m fresh n a h w = Ok n' -> shaped n' (c + 1).
  Proof. intros [d H] E. eexists. eapply shape_update; eassumption. Qed.
  Lemma shaped_count n c : shaped n c -> length (pbases n) = 1 + ones ((c - 1) / 2 ^ m).
  Proof. intros [d H]. eapply shape_count; exact H. Qed.

  Lemma ptw_feed_shaped (mk : nat -> S) evs : forall t s c s' l, shaped (pt_tree s) c ->
    feed (fun t => ptw_update M m (mk t)) t s evs = Ok (s', l) -> shaped (pt_tree s') (c + length evs).
  Proof.
    induction evs as [|e evs IH]; intros t s c s' l Hs; cbn [feed].
    - intros H. injection H as <- <-. cbn. rewrite Nat.add_0_r. exact Hs.
    - destruct (ptw_update M m (mk t) s (ev_sym e) (ev_hist e) (ev_wt e)) as [[s1 l1]|] eqn:E; cbn [bind]; [|discriminate].
      destruct (feed _ _ s1 evs) as [[s2 l2]|] eqn:E2; cbn [bind]; [|discriminate].
      intros H. injection H as <- <-. cbn [length]. replace (c + Datatypes.S (length evs)) with (c + 1 + length evs) by lia.
      apply (IH _ _ _ _ _) with (2 := E2). unfold ptw_update in E.
      destruct (pnode_update M m (mk t) (pt_tree s) (ev_sym e) (ev_hist e) (ev_wt e)) as [t'|] eqn:Eu; cbn [bind] in E; [|discriminate].
      injection E as <- <-. cbn [pt_tree]. eapply shaped_update; eassumption.
  Qed.

  Lemma ptw_memory (mk : nat -> S) evs s l :
    feed (fun t => ptw_update M m (mk t)) 0 (ptw_init m (mk 0)) evs = Ok (s, l) ->
    length (pbases (pt_tree s)) = 1 + ones ((length evs - 1) / 2 ^ m) /\
    length (pbases (pt_tree s)) <= 2 + Nat.log2 ((length evs - 1) / 2 ^ m).
  Proof.
    intros H. assert (Hs : shaped (pt_tree s) (0 + length evs)).
    { eapply ptw_feed_shaped; [|exact H]. exists 0. apply shape_new. }
    apply shaped_count in Hs. cbn [Nat.add] in Hs. split; [exact Hs|].
    pose proof (ones_log ((length evs - 1) / 2 ^ m)). rewrite Hs. lia.
  Qed.

  Lemma ptwf_memory (mk : nat -> S) len evs s l :
    feed (fun t => ptwf_update M m (mk t)) 0 (ptwf_init m len (mk 0)) evs = Ok (s, l) ->
    length (pbases (pf_tree s)) = 1 + ones ((length evs - 1) / 2 ^ m).
  Proof.
    assert (G : forall evs t s c s' l, shaped (pf_tree s) c ->
      feed (fun t => ptwf_update M m (mk t)) t s evs = Ok (s', l) -> shaped (pf_tree s') (c + length evs)).
    { clear. induction evs as [|e evs IH]; intros t s c s' l Hs; cbn [feed].
      - intros H. injection H as <- <-. cbn. rewrite Nat.add_0_r. exact Hs.
      - destruct (ptwf_update M m (mk t) s (ev_sym e) (ev_hist e) (ev_wt e)) as [[s1 l1]|] eqn:E; cbn [bind]; [|discriminate].
        destruct (feed _ _ s1 evs) as [[s2 l2]|] eqn:E2; cbn [bind]; [|discriminate].
        intros H. injection H as <- <-. cbn [length]. replace (c + Datatypes.S (length evs)) with (c + 1 + length evs) by lia.
        apply (IH _ _ _ _ _) with (2 := E2). unfold ptwf_update in E.
        destruct (pnode_update M m (mk t) (pf_tree s) (ev_sym e) (ev_hist e) (ev_wt e)) as [t'|] eqn:Eu; cbn [bind] in E; [|discriminate].
        injection E as <- <-. cbn [pf_tree]. eapply shaped_update; eassumption. }
    intros H. apply (shaped_count (pf_tree s) (0 + length evs)). eapply G; [|exact H]. exists 0. apply shape_new.
  Qed.
End ptw.

(** ** The tree of the PTW of ctw.py *)
Section qptw.
  Context {S : Type} (Q : probseq S) (fresh : S).

  Fixpoint qshape (n : qnode S) (c : nat) {struct n} : Prop :=
    let '(QNode base height lp llp rch t) := n in
    t = c /\ match rch with
             | None => c <= 1
             | Some r => exists k, 2 ^ k < c <= 2 ^ (k + 1) /\ qshape r (c - 2 ^ k)
             end.

  Lemma qshape_count : forall n c, qshape n c -> length (qbases n) = 1 + ones (c - 1).
  Proof.
    induction n as [base height lp llp rch t IH] using qnode_rec_ind. intros c (-> & Hr).
    destruct rch as [r|]; cbn [qbases length].
    - destruct Hr as (k & Hk & Hs). rewrite (IH _ Hs).
      replace (c - 1) with (2 ^ k + (c - 2 ^ k - 1)) by lia. rewrite Nat.pow_add_r in Hk. cbn in Hk.
      rewrite ones_top by lia. lia.
    - replace (c - 1) with 0 by lia. reflexivity.
  Qed.

  Lemma qshape_update : forall n c a w n', qshape n c -> qnode_update Q fresh n a w = Ok n' -> qshape n' (c + 1).
  Proof.
    induction n as [base height lp llp rch t IH] using qnode_rec_ind. intros c a w n' (-> & Hr).
    cbn [qnode_update]. destruct (m_update (q_model Q) base a [] w) as [[b' l]|]; cbn [bind]; [|discriminate].
    destruct c as [|c].
    - intros H. injection H as <-. cbn [qshape]. split; [reflexivity|]. destruct rch as [r|]; [|lia].
      destruct Hr as (k & Hk & _). lia.
    - set (t := Datatypes.S c) in *. destruct (at_splitpoint t) eqn:Es.
      + apply splitpoint_pow in Es; [|unfold t; lia].
        destruct (m_update (q_model Q) fresh a [] w) as [[rb rl]|]; cbn [bind]; [|discriminate].
        destruct (qlift _ _ _); cbn [bind]; [|discriminate]. destruct (logsumexp _); cbn [bind]; [|discriminate].
        intros H. injection H as <-. cbn [qshape]. split; [lia|]. exists (Nat.log2 t).
        rewrite Nat.pow_add_r. cbn [Nat.pow]. pose proof (pow_pos (Nat.log2 t)). split; [lia|]. split; lia.
      + destruct rch as [r|]; cbn [bind]; [|discriminate]. destruct Hr as (k & Hk & Hs).
        destruct (qnode_update Q fresh r a w) as [r'|] eqn:Eu; cbn [bind]; [|discriminate].
        destruct (qlift _ _ _); cbn [bind]; [|discriminate]. destruct (logsumexp _); cbn [bind]; [|discriminate].
        intros H. injection H as <-. cbn [qshape]. split; [lia|]. exists k. split.
        * destruct (Nat.eq_dec t (2 ^ (k + 1))) as [E|E]; [|lia].
          rewrite (proj2 (splitpoint_pow t ltac:(unfold t; lia))) in Es; [discriminate|].
          rewrite E, Nat.log2_pow2 by lia. reflexivity.
        * replace (t + 1 - 2 ^ k) with (t - 2 ^ k + 1) by lia. apply (IH _ _ _ _ Hs Eu).
  Qed.

  Lemma qptw_memory H evs s l : run (QPTW_model Q fresh) (qptw_init fresh H) evs = Ok (s, l) ->
    length (qbases (qp_tree s)) = 1 + ones (length evs - 1).
  Proof.
    assert (G : forall evs s c s' l, qshape (qp_tree s) c -> run (QPTW_model Q fresh) s evs = Ok (s', l) ->
      qshape (qp_tree s') (c + length evs)).
    { clear. induction evs as [|e evs IH]; intros s c s' l Hs; cbn [run].
      - intros H. injection H as <- <-. cbn. rewrite Nat.add_0_r. exact Hs.
      - cbn [m_update QPTW_model]. destruct (qptw_update Q fresh s (ev_sym e) (ev_hist e) (ev_wt e)) as [[s1 l1]|] eqn:E; cbn [bind]; [|discriminate].
        destruct (run _ s1 evs) as [[s2 l2]|] eqn:E2; cbn [bind]; [|discriminate].
        intros H. injection H as <- <-. cbn [length]. replace (c + Datatypes.S (length evs)) with (c + 1 + length evs) by lia.
        apply (IH _ _ _ _) with (2 := E2). unfold qptw_update in E.
        destruct (qnode_update Q fresh (qp_tree s) (ev_sym e) (ev_wt e)) as [t'|] eqn:Eu; cbn [bind] in E; [|discriminate].
        destruct (_ <=? _); [|discriminate]. destruct (qlift _ _ _); cbn [bind] in E; [|discriminate].
        injection E as <- <-. cbn [qp_tree]. eapply qshape_update; eassumption. }
    intros Hr. apply (qshape_count (qp_tree s) (0 + length evs)). eapply G; [|exact Hr]. cbn. lia.
  Qed.
End qptw.
