(** PTW.log_predict: right between partition boundaries, not normalised on them. *)
From Coq Require Import Lra.
From Verif Require Import Model.PTW Spec.PTWSpec Proofs.RealFacts Proofs.PyFacts Proofs.ProbFacts Proofs.PTWFacts Proofs.PTWTop Proofs.PTWNorm.
Open Scope R_scope.

Lemma mod_pow_sub m d n : (2 ^ (m + d) <= n)%nat -> ((n - 2 ^ (m + d)) mod 2 ^ m = n mod 2 ^ m)%nat.
Proof.
  intros H. assert (Hm : (2 ^ m <> 0)%nat) by (apply Nat.pow_nonzero; lia).
  replace n with ((n - 2 ^ (m + d)) + 2 ^ d * 2 ^ m)%nat at 2.
  - rewrite Nat.mod_add by exact Hm. reflexivity.
  - rewrite Nat.pow_add_r in *. lia.
Qed.

Lemma mod_pow_self m d : (2 ^ (m + d) mod 2 ^ m = 0)%nat.
Proof.
  assert (Hm : (2 ^ m <> 0)%nat) by (apply Nat.pow_nonzero; lia).
  rewrite Nat.pow_add_r, Nat.mul_comm. apply Nat.mod_mul. exact Hm.
Qed.

Section predict.
  Context {S : Type} (M : model S).
  Context (A : list Z) (okh : list Z -> Prop) (okw : R -> Prop) (Inv : S -> Prop).
  Hypothesis HS : steps M A okh okw Inv.
  Variable mk : nat -> S.
  Hypothesis Hmk : forall t, Inv (mk t).
  Variable m : nat.
  Notation ok := (ok_event A okh okw).
  Notation P := (ptw_prob M mk m).
  Notation prep := (prep M mk m).

  Lemma pnode_predict_between : forall n d s evs e n', prep d n s evs -> Forall ok evs -> ok e ->
    (evs = [] \/ length evs mod 2 ^ m <> 0)%nat ->
    pnode_update M m (mk (s + length evs)) n (ev_sym e) (ev_hist e) (ev_wt e) = Ok n' ->
    (length evs < 2 ^ (m + d))%nat /\
    pnode_log_predict M n (ev_sym e) (ev_hist e) = Ok (p_lp n', p_blp n', p_height n').
  Proof.
    induction n as [base height count blp llp lp rch IH] using pnode_rec_ind. intros d s evs e n' Hp Hev He Hb Hu.
    pose proof Hp as (Hrun & -> & -> & Hc & Hlp & Hr).
    assert (Hnc : (length evs < 2 ^ (m + d))%nat).
    { destruct Hb as [->|Hb]; [apply pow_pos|].
      assert (length evs <> 2 ^ (m + d))%nat; [|lia]. intros E. rewrite E, mod_pow_self in Hb. congruence. }
    split; [exact Hnc|].
    pose proof (run_inv M A okh okw Inv HS mk Hmk s evs base blp Hev Hrun) as Hbase.
    pose proof He as (Ha & Hh & Hw).
    destruct (HS base _ _ _ Hbase Ha Hh Hw) as (base' & l & Hub & Hpb & _).
    cbn [pnode_update pnode_log_predict] in *. rewrite complete_spec in *. cbn [p_height p_count] in *.
    replace (2 ^ (m + d) <=? length evs)%nat with false in * by (symmetry; apply Nat.leb_gt; lia).
    rewrite Hub in Hu. rewrite Hpb. cbn [bind] in *. destruct rch as [r|].
    - destruct Hr as (d' & dr & -> & Hdr & Hlt & Hllp & Hpr).
      assert (Hlr : length (skipn (2 ^ (m + d')) evs) = (length evs - 2 ^ (m + d'))%nat) by apply skipn_length.
      destruct (pnode_update M m (mk (s + length evs)) r _ _ _) as [r'|x] eqn:Er; cbn [bind] in Hu; [|discriminate].
      destruct (IH dr (s + 2 ^ (m + d'))%nat (skipn (2 ^ (m + d')) evs) e r' Hpr (Forall_skipn _ _ _ Hev) He) as (_ & Hrp).
      { right. rewrite Hlr, mod_pow_sub by lia. destruct Hb as [->|Hb]; [cbn in Hlt; lia|exact Hb]. }
      { rewrite Hlr. rewrite <- Er. do 2 f_equal. lia. }
      rewrite Hrp. cbn [bind]. injection Hu as <-. reflexivity.
    - injection Hu as <-. reflexivity.
  Qed.

  (** Between boundaries log_predict returns exactly what update returns. *)
  Lemma ptw_predict_between evs e s l : Forall ok evs -> ok e ->
    (evs = [] \/ length evs mod 2 ^ m <> 0)%nat ->
    feed (fun t => ptw_update M m (mk t)) 0 (ptw_init m (mk 0)) evs = Ok (s, l) ->
    exists s' l', ptw_update M m (mk (length evs)) s (ev_sym e) (ev_hist e) (ev_wt e) = Ok (s', l') /\
      ptw_log_predict M s (ev_sym e) (ev_hist e) = Ok l'.
  Proof.
    intros Hev He Hb Hf. destruct (feed_rep M A okh okw Inv HS mk Hmk m evs s l Hev Hf) as ((Hp & Hlp) & _).
    destruct (tree_step M A okh okw Inv HS mk Hmk m _ _ _ Hp Hev He) as (n' & Hu & Hp').
    destruct (pnode_predict_between _ _ _ _ _ _ Hp Hev He Hb Hu) as (Hlt & Hpr).
    pose proof (prep_fields _ _ _ _ _ _ _ Hp) as (_ & Hh & Hc & _).
    unfold ptw_update, ptw_log_predict. rewrite Hu, Hpr, complete_spec, Hh, Hc.
    replace (2 ^ (m + levels m (length evs)) <=? length evs)%nat with false by (symmetry; apply Nat.leb_gt; lia).
    cbn [bind]. do 2 eexists. split; reflexivity.
  Qed.

  Lemma ptwf_predict_between len evs e s l : Forall ok evs -> ok e -> (length evs < len)%nat ->
    (evs = [] \/ length evs mod 2 ^ m <> 0)%nat ->
    feed (fun t => ptwf_update M m (mk t)) 0 (ptwf_init m len (mk 0)) evs = Ok (s, l) ->
    exists s' l', ptwf_update M m (mk (length evs)) s (ev_sym e) (ev_hist e) (ev_wt e) = Ok (s', l') /\
      ptwf_log_predict M s (ev_sym e) (ev_hist e) = Ok l'.
  Proof.
    intros Hev He Hlen Hb Hf.
    assert (Hlf : (length evs <= 2 ^ fixed_height_of len)%nat) by (apply len_fixed; lia).
    destruct (ptwf_feed M A okh okw Inv HS mk Hmk m len evs Hev Hlf) as (s' & Hf' & (Hp & _) & HH).
    rewrite Hf in Hf'. injection Hf' as <- _.
    destruct (tree_step M A okh okw Inv HS mk Hmk m _ _ _ Hp Hev He) as (n' & Hu & Hp').
    destruct (pnode_predict_between _ _ _ _ _ _ Hp Hev He Hb Hu) as (Hlt & Hpr).
    unfold ptwf_update, ptwf_log_predict. rewrite Hu, Hpr. cbn [bind]. do 2 eexists. split; reflexivity.
  Qed.
End predict.

Section boundary.
  Context {S : Type} (M : model S).
  Context (A : list Z) (okh : list Z -> Prop) (okw : R -> Prop) (Inv : S -> Prop).
  Hypothesis HL : lawful M A okh okw Inv.
  Variable mk : nat -> S.
  Hypothesis Hmk : forall t, Inv (mk t).
  Variable m : nat.
  Hypothesis HA : (2 <= length A)%nat.
  Notation ok := (ok_event A okh okw).
  Notation P := (ptw_prob M mk m).
  Notation prep := (prep M mk m).
  Let HS := law_step _ _ _ _ _ HL.

  Lemma lift_sum (b x : Z -> R) k : forall d s evs, (length evs <= 2 ^ (m + d))%nat ->
    Rsum (map (fun a => exp (b a)) A) = seq_prob M (mk s) evs ->
    P d s evs < Rsum (map (fun a => exp (x a)) A) ->
    P (k + d) s evs < Rsum (map (fun a => exp (lift k (b a) (x a))) A).
  Proof.
    revert x; induction k as [|k IH]; intros x d s evs Hl Hb Hx; cbn [lift]; [exact Hx|].
    replace (Datatypes.S k + d)%nat with (k + Datatypes.S d)%nat by lia.
    apply (IH (fun a => log_0_5 + logsumexp2 (b a) (x a))); [|exact Hb|].
    - etransitivity; [exact Hl|]. apply Nat.pow_le_mono_r; lia.
    - rewrite (Rsum_map_ext _ (fun a => / 2 * exp (b a) + / 2 * exp (x a))) by (intros a _; apply mix_exp).
      rewrite Rsum_plus, !Rsum_scal_l, Hb. rewrite ptw_prob_short by exact Hl. lra.
  Qed.

  Definition pred_fst (n : pnode S) (h : list Z) (a : Z) : R :=
    match pnode_log_predict M n a h with Ok (x, _, _) => x | Err _ => 0 end.
  Definition pred_snd (n : pnode S) (h : list Z) (a : Z) : R :=
    match pnode_log_predict M n a h with Ok (_, b, _) => b | Err _ => 0 end.

  Lemma pnode_predict_boundary h w : okh h -> okw w -> forall n d s evs, prep d n s evs -> Forall ok evs ->
    (length evs <> 0)%nat -> (length evs mod 2 ^ m = 0)%nat ->
    let d' := if (length evs <? 2 ^ (m + d))%nat then d else Datatypes.S d in
    (forall a, In a A -> pnode_log_predict M n a h = Ok (pred_fst n h a, pred_snd n h a, (m + d')%nat)) /\
    Rsum (map (fun a => exp (pred_snd n h a)) A) = seq_prob M (mk s) evs /\
    P d' s evs < Rsum (map (fun a => exp (pred_fst n h a)) A).
  Proof.
    intros Hh Hw. induction n as [base height count blp llp lp rch IH] using pnode_rec_ind.
    intros d s evs Hp Hev Hne Hb.
    pose proof Hp as (Hrun & -> & -> & Hc & Hlp & Hr).
    pose proof (run_inv M A okh okw Inv HS mk Hmk s evs base blp Hev Hrun) as Hbase.
    assert (Hpos : 0 < P d s evs) by (apply (ptw_prob_pos M A okh okw Inv HS mk Hmk); exact Hev).
    set (bl := fun a => match m_logp M base a h with Ok l => l | Err _ => 0 end).
    assert (Hbl : forall a, In a A -> m_logp M base a h = Ok (bl a)).
    { intros a Ha. destruct (HS base a h w Hbase Ha Hh Hw) as (b' & l & _ & E & _). unfold bl. rewrite E. reflexivity. }
    assert (Hblsum : Rsum (map (fun a => exp (blp + bl a)) A) = seq_prob M (mk s) evs).
    { rewrite (seq_prob_run _ _ _ _ _ Hrun).
      rewrite (Rsum_map_ext _ (fun a => exp blp * pred_prob M base a h)).
      - rewrite Rsum_scal_l, (law_norm _ _ _ _ _ HL base h Hbase Hh). lra.
      - intros a Ha. rewrite exp_plus. unfold pred_prob. rewrite (Hbl a Ha). reflexivity. }
    assert (HlenA : 2 <= INR (length A)) by (change 2 with (INR 2); apply le_INR; exact HA).
    unfold pred_fst, pred_snd. cbn [pnode_log_predict]. rewrite complete_spec. cbn [p_height p_count].
    destruct (Nat.ltb_spec (length evs) (2 ^ (m + d))) as [Hlt|Hge].
    - replace (2 ^ (m + d) <=? length evs)%nat with false by (symmetry; apply Nat.leb_gt; lia).
      destruct rch as [r|].
      2: { exfalso. subst d. rewrite Nat.add_0_r in Hlt. rewrite Nat.mod_small in Hb by exact Hlt. contradiction. }
      destruct Hr as (d' & dr & -> & Hdr & Hlt' & Hllp & Hpr).
      assert (Hlr : length (skipn (2 ^ (m + d')) evs) = (length evs - 2 ^ (m + d'))%nat) by apply skipn_length.
      destruct (IH dr _ _ Hpr (Forall_skipn _ _ _ Hev)) as (Hr1 & Hr2 & Hr3).
      { lia. } { rewrite Hlr, mod_pow_sub by lia. exact Hb. }
      rewrite Hlr in Hr1, Hr3.
      set (dr' := if (length evs - 2 ^ (m + d') <? 2 ^ (m + dr))%nat then dr else Datatypes.S dr) in *.
      assert (Hpow : (2 ^ (m + Datatypes.S d') = 2 * 2 ^ (m + d'))%nat)
        by (replace (m + Datatypes.S d')%nat with (Datatypes.S (m + d')) by lia; reflexivity).
      pose proof (prep_fields _ _ _ _ _ _ _ Hpr) as (_ & _ & _ & Hf4 & _).
      assert (Hdr' : (dr' <= d')%nat /\ (length evs - 2 ^ (m + d') <= 2 ^ (m + dr'))%nat).
      { unfold dr'. destruct (Nat.ltb_spec (length evs - 2 ^ (m + d')) (2 ^ (m + dr))) as [Hx|Hx].
        - split; lia.
        - split; [assert (dr <> d') by (intros ->; lia); lia|].
          rewrite Hlr in Hf4. etransitivity; [exact Hf4|]. apply Nat.pow_le_mono_r; lia. }
      destruct Hdr' as (Hdr' & Hfit).
      set (X := fun a => lift (m + Datatypes.S d' - (m + dr') - 1) (pred_snd r h a) (pred_fst r h a)).
      assert (HX : P d' (s + 2 ^ (m + d')) (skipn (2 ^ (m + d')) evs) < Rsum (map (fun a => exp (X a)) A)).
      { unfold X. replace (m + Datatypes.S d' - (m + dr') - 1)%nat with (d' - dr')%nat by lia.
        replace d' with ((d' - dr') + dr')%nat at 1 by lia.
        apply lift_sum; [rewrite Hlr; exact Hfit|exact Hr2|exact Hr3]. }
      assert (Hval : forall a, In a A -> pnode_log_predict M (PNode base (m + Datatypes.S d') (length evs) blp llp lp (Some r)) a h =
        Ok (log_0_5 + logsumexp2 (blp + bl a) (llp + X a), blp + bl a, (m + Datatypes.S d')%nat)).
      { intros a Ha. cbn [pnode_log_predict]. rewrite complete_spec. cbn [p_height p_count].
        replace (2 ^ (m + Datatypes.S d') <=? length evs)%nat with false by (symmetry; apply Nat.leb_gt; lia).
        rewrite (Hbl a Ha). cbn [bind]. rewrite (Hr1 a Ha). reflexivity. }
      cbn [pnode_log_predict] in Hval. rewrite complete_spec in Hval. cbn [p_height p_count] in Hval.
      replace (2 ^ (m + Datatypes.S d') <=? length evs)%nat with false in Hval by (symmetry; apply Nat.leb_gt; lia).
      split; [intros a Ha; rewrite (Hval a Ha); reflexivity|]. split.
      + rewrite <- Hblsum. apply Rsum_map_ext. intros a Ha. rewrite (Hval a Ha). reflexivity.
      + rewrite (Rsum_map_ext _ (fun a => / 2 * exp (blp + bl a) + / 2 * exp llp * exp (X a))).
        * rewrite Rsum_plus, !Rsum_scal_l, Hblsum. cbn [ptw_prob]. rewrite Hllp.
          assert (0 < P d' s (firstn (2 ^ (m + d')) evs))
            by (apply (ptw_prob_pos M A okh okw Inv HS mk Hmk), Forall_firstn, Hev).
          nra.
        * intros a Ha. rewrite (Hval a Ha). rewrite mix_exp, (exp_plus llp). ring.
    - replace (2 ^ (m + d) <=? length evs)%nat with true by (symmetry; apply Nat.leb_le; lia).
      split; [intros a Ha; rewrite (Hbl a Ha); cbn [bind]; do 2 f_equal; lia|]. split.
      + rewrite <- Hblsum. apply Rsum_map_ext. intros a Ha. rewrite (Hbl a Ha). reflexivity.
      + rewrite (Rsum_map_ext _ (fun a => / 2 * exp (blp + bl a) + / 2 * P d s evs)).
        * rewrite Rsum_plus, Rsum_scal_l, Hblsum, Rsum_const. rewrite ptw_prob_short by exact Hc. nra.
        * intros a Ha. rewrite (Hbl a Ha). cbn [bind]. rewrite mix_exp, Hlp. reflexivity.
  Qed.

  (** On a boundary the predictions sum to more than one. *)
  Lemma ptw_predict_boundary evs s l h w : Forall ok evs -> okh h -> okw w ->
    (length evs <> 0)%nat -> (length evs mod 2 ^ m = 0)%nat ->
    feed (fun t => ptw_update M m (mk t)) 0 (ptw_init m (mk 0)) evs = Ok (s, l) ->
    1 < Rsum (map (fun a => match ptw_log_predict M s a h with Ok l => exp l | Err _ => 0 end) A).
  Proof.
    intros Hev Hh Hw Hne Hb Hf.
    destruct (feed_rep M A okh okw Inv HS mk Hmk m evs s l Hev Hf) as ((Hp & Hlp) & _).
    destruct (pnode_predict_boundary h w Hh Hw _ _ _ _ Hp Hev Hne Hb) as (H1 & _ & H3).
    pose proof (prep_fields _ _ _ _ _ _ _ Hp) as (_ & Hth & Hc & Hl2 & Htlp).
    pose proof (prep_blp _ _ _ _ _ _ _ Hp) as Hblp.
    set (lev := levels m (length evs)) in *.
    set (d' := if (length evs <? 2 ^ (m + lev))%nat then lev else Datatypes.S lev) in *.
    assert (Hpos : forall d, 0 < P d 0 evs) by (intros d; apply (ptw_prob_pos M A okh okw Inv HS mk Hmk); exact Hev).
    rewrite (Rsum_map_ext _ (fun a => exp (pred_fst (pt_tree s) h a) * / P d' 0 evs)).
    - rewrite Rsum_scal_r. specialize (Hpos d').
      apply Rmult_lt_reg_r with (P d' 0 evs); [exact Hpos|]. rewrite Rmult_assoc, Rinv_l by lra. lra.
    - intros a Ha. unfold ptw_log_predict. rewrite (H1 a Ha). cbn [bind]. rewrite complete_spec, Hth, Hc, Hlp.
      unfold d'. clear H1 H3 d'.
      destruct (Nat.leb_spec (2 ^ (m + lev)) (length evs)) as [Hx|Hx];
        destruct (Nat.ltb_spec (length evs) (2 ^ (m + lev))) as [Hy|Hy]; try lia.
      + rewrite !exp_minus, !exp_plus, exp_minus, exp_plus, mix_exp, Htlp, Hblp.
        rewrite <- ptw_prob_short by exact Hl2. pose proof (exp_pos (pt_adj s)).
        pose proof (Hpos lev). pose proof (Hpos (Datatypes.S lev)). field. repeat split; lra.
      + rewrite !exp_minus, !exp_plus, Htlp. pose proof (exp_pos (pt_adj s)). pose proof (Hpos lev).
        field. repeat split; lra.
  Qed.

  Lemma ptwf_predict_boundary len evs s l h w : Forall ok evs -> okh h -> okw w ->
    (length evs < len)%nat -> (length evs <> 0)%nat -> (length evs mod 2 ^ m = 0)%nat ->
    feed (fun t => ptwf_update M m (mk t)) 0 (ptwf_init m len (mk 0)) evs = Ok (s, l) ->
    1 < Rsum (map (fun a => match ptwf_log_predict M s a h with Ok l => exp l | Err _ => 0 end) A).
  Proof.
    intros Hev Hh Hw Hlen Hne Hb Hf.
    assert (Hlf : (length evs <= 2 ^ fixed_height_of len)%nat) by (apply len_fixed; lia).
    assert (Hlf' : (length evs < 2 ^ fixed_height_of len)%nat) by (pose proof (len_fixed len len); lia).
    destruct (ptwf_feed M A okh okw Inv HS mk Hmk m len evs Hev Hlf) as (s' & Hf' & (Hp & Hlp) & HH).
    rewrite Hf in Hf'. injection Hf' as <- _.
    destruct (pnode_predict_boundary h w Hh Hw _ _ _ _ Hp Hev Hne Hb) as (H1 & H2 & H3).
    pose proof (prep_fields _ _ _ _ _ _ _ Hp) as (_ & _ & _ & Hl2 & _).
    rewrite HH in Hlp. set (H := fixed_height_of len) in *.
    set (lev := levels m (length evs)) in *.
    set (d' := if (length evs <? 2 ^ (m + lev))%nat then lev else Datatypes.S lev) in *.
    assert (Hpos : forall d, 0 < P d 0 evs) by (intros d; apply (ptw_prob_pos M A okh okw Inv HS mk Hmk); exact Hev).
    assert (Hd : (m + d' <= H)%nat /\ (length evs <= 2 ^ (m + d'))%nat).
    { assert (HmH : (m <= H)%nat).
      { destruct (Nat.le_gt_cases m H) as [|Hx]; [assumption|exfalso].
        assert (2 ^ H <= 2 ^ m)%nat by (apply Nat.pow_le_mono_r; lia).
        rewrite Nat.mod_small in Hb by lia. contradiction. }
      assert (Hd2 : d' = levels m (Datatypes.S (length evs))) by (unfold d', lev; rewrite levels_S; reflexivity).
      split.
      - assert (levels m (Datatypes.S (length evs)) <= H - m)%nat; [|lia].
        apply levels_le. replace (m + (H - m))%nat with H by lia. lia.
      - rewrite Hd2. pose proof (levels_fit m (Datatypes.S (length evs))). lia. }
    destruct Hd as (Hd1 & Hd2).
    pose proof (lift_sum (pred_snd (pf_tree s) h) (pred_fst (pf_tree s) h) (H - (m + d')) d' 0 evs Hd2 H2 H3) as HX.
    replace (H - (m + d') + d')%nat with (H - m)%nat in HX by lia.
    rewrite (Rsum_map_ext _ (fun a => exp (lift (H - (m + d')) (pred_snd (pf_tree s) h a) (pred_fst (pf_tree s) h a)) * / P (H - m) 0 evs)).
    - rewrite Rsum_scal_r. specialize (Hpos (H - m)%nat).
      apply Rmult_lt_reg_r with (P (H - m) 0 evs); [exact Hpos|]. rewrite Rmult_assoc, Rinv_l by lra. lra.
    - intros a Ha. unfold ptwf_log_predict. rewrite (H1 a Ha), HH. cbn [bind]. fold H.
      rewrite exp_minus, Hlp. reflexivity.
  Qed.
End boundary.

(** ** min_partition_length (C25) *)
Lemma min_height_down n : (0 < n)%nat -> (2 ^ min_height_of n <= n < 2 ^ S (min_height_of n))%nat.
Proof. intros H. unfold min_height_of. apply Nat.log2_spec. exact H. Qed.

Lemma min_height_pow k : min_height_of (2 ^ k) = k.
Proof. unfold min_height_of. apply Nat.log2_pow2. lia. Qed.

Lemma fixed_height_up n : (0 < n)%nat -> (n <= 2 ^ fixed_height_of n)%nat /\
  forall k, (n <= 2 ^ k)%nat -> (fixed_height_of n <= k)%nat.
Proof.
  intros H. unfold fixed_height_of. destruct (Nat.le_gt_cases n 1) as [H1|H1].
  - replace n with 1%nat by lia. cbn. split; [lia|]. intros; lia.
  - split; [apply Nat.log2_up_spec; exact H1|]. intros k Hk. apply Nat.log2_up_le_pow2; assumption.
Qed.
