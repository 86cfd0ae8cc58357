(** PTW and PTWFixedLength: total probabilities, normalisation, predictions. *)
From Coq Require Import Lra.
From Verif Require Import Model.PTW Spec.PTWSpec Proofs.RealFacts Proofs.PyFacts Proofs.ProbFacts Proofs.PTWFacts.
Open Scope R_scope.

Lemma levels_0 m : levels m 0 = 0%nat.
Proof. reflexivity. Qed.

Lemma levels_S m n : levels m (S n) = if (n <? 2 ^ (m + levels m n))%nat then levels m n else S (levels m n).
Proof.
  pose proof (levels_fit m n) as Hf. pose proof (pow_pos (m + levels m n)).
  destruct (Nat.ltb_spec n (2 ^ (m + levels m n))) as [H1|H1].
  - symmetry. apply levels_unique; [lia|].
    destruct (levels m n) as [|d] eqn:E; [left; reflexivity|right].
    replace (S d - 1)%nat with d by lia.
    assert (~ (levels m n <= d))%nat as Hn by lia. rewrite <- levels_le in Hn. lia.
  - symmetry. apply levels_unique.
    + replace (m + S (levels m n))%nat with (S (m + levels m n)) by lia. cbn [Nat.pow]. lia.
    + right. replace (S (levels m n) - 1)%nat with (levels m n) by lia. lia.
Qed.

Lemma len_fixed len n : (n <= len)%nat -> (n <= 2 ^ fixed_height_of len)%nat.
Proof. unfold fixed_height_of. intros H. destruct (Nat.le_gt_cases len 1) as [H1|H1].
  - pose proof (pow_pos (Nat.log2_up len)). lia.
  - pose proof (Nat.log2_up_spec len H1). lia. Qed.

Section top.
  Context {S : Type} (M : model S).
  Context (A : list Z) (okh : list Z -> Prop) (okw : R -> Prop) (Inv : S -> Prop).
  Hypothesis HS : steps M A okh okw Inv.
  Variable mk : nat -> S.
  Hypothesis Hmk : forall t, Inv (mk t).
  Variable m : nat.
  Notation ok := (ok_event A okh okw).
  Notation P := (ptw_prob M mk m).
  Notation prep := (prep M mk m).
  Notation lev evs := (levels m (length evs)).

  Lemma tree_step n evs e : prep (lev evs) n 0 evs -> Forall ok evs -> ok e ->
    exists n', pnode_update M m (mk (length evs)) n (ev_sym e) (ev_hist e) (ev_wt e) = Ok n' /\
      prep (levels m (Datatypes.S (length evs))) n' 0 (evs ++ [e]).
  Proof.
    intros Hp Hev He. destruct (pnode_update_prep M A okh okw Inv HS mk Hmk m n _ _ _ e Hp Hev He) as (n' & Hu & Hp').
    exists n'. split; [exact Hu|]. rewrite levels_S. exact Hp'.
  Qed.

  Lemma ok_pos d s evs : Forall ok evs -> 0 < P d s evs.
  Proof. apply (ptw_prob_pos M A okh okw Inv HS mk Hmk). Qed.

  (** ** Fixed length *)
  Definition ptwf_rep (s : ptwf) (evs : list event) : Prop :=
    prep (lev evs) (pf_tree s) 0 evs /\ exp (pf_lp s) = P (pf_height s - m) 0 evs.

  Lemma fixed_lift H n evs : prep (lev evs) n 0 evs -> (length evs <= 2 ^ H)%nat ->
    exp (lift (H - p_height n) (p_blp n) (p_lp n)) = P (H - m) 0 evs.
  Proof.
    intros Hp Hl. pose proof (prep_fields _ _ _ _ _ _ _ Hp) as (_ & Hh & _ & Hl2 & Hlp).
    rewrite Hh. assert (Hle : (lev evs <= H - m)%nat).
    { apply levels_le. etransitivity; [exact Hl|]. apply Nat.pow_le_mono_r; lia. }
    replace (H - m)%nat with ((H - (m + lev evs)) + lev evs)%nat by lia.
    apply lift_exp; [exact Hl2| |exact Hlp]. eapply prep_blp; exact Hp.
  Qed.

  Lemma ptwf_step s evs e : ptwf_rep s evs -> Forall ok evs -> ok e ->
    (length evs < 2 ^ pf_height s)%nat ->
    exists s', ptwf_update M m (mk (length evs)) s (ev_sym e) (ev_hist e) (ev_wt e) =
               Ok (s', pf_lp s' - pf_lp s) /\ ptwf_rep s' (evs ++ [e]) /\ pf_height s' = pf_height s.
  Proof.
    intros (Hp & Hlp) Hev He Hl. destruct (tree_step _ _ _ Hp Hev He) as (n' & Hu & Hp').
    unfold ptwf_update. rewrite Hu. cbn [bind]. eexists (PTWF _ n' _). split; [reflexivity|].
    split; [|reflexivity].
    assert (Hlen : length (evs ++ [e]) = Datatypes.S (length evs)) by (rewrite app_length; cbn; lia).
    split; cbn [pf_tree pf_lp pf_height].
    - rewrite Hlen. exact Hp'.
    - apply fixed_lift; rewrite Hlen; [exact Hp'|lia].
  Qed.

  Lemma ptwf_feed len evs : Forall ok evs -> (length evs <= 2 ^ fixed_height_of len)%nat ->
    exists s, feed (fun t => ptwf_update M m (mk t)) 0 (ptwf_init m len (mk 0)) evs = Ok (s, pf_lp s) /\
              ptwf_rep s evs /\ pf_height s = fixed_height_of len.
  Proof.
    induction evs as [|e evs IH] using rev_ind; intros Hev Hl.
    - exists (ptwf_init m len (mk 0)). split; [reflexivity|]. split; [|reflexivity]. split.
      + apply prep_new.
      + cbn [ptwf_init pf_lp]. rewrite exp_0, ptw_prob_nil. reflexivity.
    - apply Forall_app in Hev as (Hev & He). inversion He as [|x y He1 _]; subst.
      rewrite app_length in Hl; cbn [length] in Hl.
      destruct (IH Hev) as (s & Hf & Hr & Hh); [lia|].
      destruct (ptwf_step s evs e Hr Hev He1) as (s' & Hu & Hr' & Hh'); [rewrite Hh; lia|].
      exists s'. split; [|split; [exact Hr'|congruence]].
      rewrite (feed_snoc _ _ _ _ _ _ _ s' _ Hf Hu). do 2 f_equal. lra.
  Qed.


  Lemma ptwf_recursion len evs : Forall ok evs -> (length evs <= len)%nat ->
    exists s l, feed (fun t => ptwf_update M m (mk t)) 0 (ptwf_init m len (mk 0)) evs = Ok (s, l) /\
      exp l = P (fixed_height_of len - m) 0 evs.
  Proof.
    intros Hev Hl. destruct (ptwf_feed len evs Hev (len_fixed _ _ Hl)) as (s & Hf & (_ & Hr) & Hh).
    exists s, (pf_lp s). split; [exact Hf|]. rewrite Hr, Hh. reflexivity.
  Qed.

  (** ** Unknown length *)
  Definition ptw_rep (s : ptw) (evs : list event) : Prop :=
    prep (lev evs) (pt_tree s) 0 evs /\ pt_lp s = p_lp (pt_tree s) + pt_adj s.

  Lemma ptw_step s evs e : ptw_rep s evs -> Forall ok evs -> ok e ->
    exists s', ptw_update M m (mk (length evs)) s (ev_sym e) (ev_hist e) (ev_wt e) =
               Ok (s', pt_lp s' - pt_lp s) /\ ptw_rep s' (evs ++ [e]) /\
      exp (pt_lp s' - pt_lp s) =
        P (levels m (Datatypes.S (length evs))) 0 (evs ++ [e]) /
        P (levels m (Datatypes.S (length evs))) 0 evs /\
      exp (pt_adj s') = exp (pt_adj s) * (P (lev evs) 0 evs / P (levels m (Datatypes.S (length evs))) 0 evs).
  Proof.
    intros (Hp & Hlp) Hev He. destruct (tree_step _ _ _ Hp Hev He) as (n' & Hu & Hp').
    pose proof (prep_fields _ _ _ _ _ _ _ Hp) as (_ & Hh & Hc & Hl2 & Htlp).
    pose proof (prep_fields _ _ _ _ _ _ _ Hp') as (_ & _ & _ & _ & Htlp').
    pose proof (prep_blp _ _ _ _ _ _ _ Hp) as Hblp.
    pose proof (ok_pos (lev evs) 0 evs Hev) as Hpos.
    pose proof (ok_pos (Datatypes.S (lev evs)) 0 evs Hev) as Hpos1.
    assert (Hlen : length (evs ++ [e]) = Datatypes.S (length evs)) by (rewrite app_length; cbn; lia).
    unfold ptw_update. rewrite Hu. cbn [bind]. eexists (PTW n' _ _). split; [reflexivity|].
    split; [split; cbn [pt_tree pt_lp pt_adj]; [rewrite Hlen; exact Hp'|reflexivity]|].
    cbn [pt_tree pt_lp pt_adj]. rewrite Hlp.
    rewrite complete_spec, Hh, Hc. rewrite levels_S in *.
    destruct (Nat.leb_spec (2 ^ (m + lev evs)) (length evs)) as [Hfull|Hfull];
      destruct (Nat.ltb_spec (length evs) (2 ^ (m + lev evs))) as [Hx|Hx]; try lia.
    - rewrite !exp_minus, !exp_plus, !exp_minus, mix_exp, Htlp', Htlp, Hblp.
      rewrite <- ptw_prob_short by exact Hl2.
      pose proof (exp_pos (pt_adj s)). split; field; repeat split; lra.
    - rewrite !exp_minus, !exp_plus, Htlp', Htlp.
      pose proof (exp_pos (pt_adj s)). split; field; repeat split; lra.
  Qed.

  Lemma ptw_rep_init : ptw_rep (ptw_init m (mk 0)) [].
  Proof.
    split; [apply prep_new|]. cbn. lra.
  Qed.

  Lemma ptw_feed evs : Forall ok evs ->
    exists s, feed (fun t => ptw_update M m (mk t)) 0 (ptw_init m (mk 0)) evs = Ok (s, pt_lp s) /\
              ptw_rep s evs.
  Proof.
    induction evs as [|e evs IH] using rev_ind; intros Hev.
    - exists (ptw_init m (mk 0)). split; [reflexivity|]. apply ptw_rep_init.
    - apply Forall_app in Hev as (Hev & He). inversion He as [|x y He1 _]; subst.
      destruct (IH Hev) as (s & Hf & Hr).
      destruct (ptw_step s evs e Hr Hev He1) as (s' & Hu & Hr' & _).
      exists s'. split; [|exact Hr'].
      rewrite (feed_snoc _ _ _ _ _ _ _ s' _ Hf Hu). do 2 f_equal. lra.
  Qed.

  Lemma feed_rep evs s l : Forall ok evs ->
    feed (fun t => ptw_update M m (mk t)) 0 (ptw_init m (mk 0)) evs = Ok (s, l) -> ptw_rep s evs /\ l = pt_lp s.
  Proof. intros Hev Hf. destruct (ptw_feed evs Hev) as (s' & Hf' & Hr). rewrite Hf in Hf'. injection Hf' as <- <-. tauto. Qed.

  (** The update ratio. *)
  Lemma ptw_ratio evs e : Forall ok evs -> ok e ->
    exists s l s' l', feed (fun t => ptw_update M m (mk t)) 0 (ptw_init m (mk 0)) evs = Ok (s, l) /\
      ptw_update M m (mk (length evs)) s (ev_sym e) (ev_hist e) (ev_wt e) = Ok (s', l') /\
      let h := levels m (Datatypes.S (length evs)) in exp l' = P h 0 (evs ++ [e]) / P h 0 evs.
  Proof.
    intros Hev He. destruct (ptw_feed evs Hev) as (s & Hf & Hr).
    destruct (ptw_step s evs e Hr Hev He) as (s' & Hu & _ & Hq & _).
    exists s, (pt_lp s), s', (pt_lp s' - pt_lp s). auto.
  Qed.

  (** Bounds on what not knowing the length costs. *)
  Lemma half_base d s evs : Forall ok evs -> / 2 * seq_prob M (mk s) evs <= P (Datatypes.S d) s evs.
  Proof.
    intros H. cbn [ptw_prob].
    pose proof (ok_pos d s _ (Forall_firstn _ (2 ^ (m + d)) _ H)).
    pose proof (ok_pos d (s + 2 ^ (m + d)) _ (Forall_skipn _ (2 ^ (m + d)) _ H)). nra.
  Qed.

  Lemma adj_bounds evs : Forall ok evs ->
    exists s, feed (fun t => ptw_update M m (mk t)) 0 (ptw_init m (mk 0)) evs = Ok (s, pt_lp s) /\
      ptw_rep s evs /\ (2 / 3) ^ pred (lev evs) <= exp (pt_adj s) <= 2 ^ pred (lev evs).
  Proof.
    induction evs as [|e evs IH] using rev_ind; intros Hev.
    - exists (ptw_init m (mk 0)). split; [reflexivity|]. split; [apply ptw_rep_init|].
      cbn. rewrite exp_0. lra.
    - apply Forall_app in Hev as (Hev & He). inversion He as [|x y He1 _]; subst.
      destruct (IH Hev) as (s & Hf & Hr & Hb).
      destruct (ptw_step s evs e Hr Hev He1) as (s' & Hu & Hr' & _ & Ha).
      exists s'. split; [rewrite (feed_snoc _ _ _ _ _ _ _ s' _ Hf Hu); do 2 f_equal; lra|].
      split; [exact Hr'|]. rewrite Ha.
      replace (length (evs ++ [e])) with (Datatypes.S (length evs)) by (rewrite app_length; cbn; lia).
      rewrite levels_S. pose proof (ok_pos (lev evs) 0 evs Hev) as Hp.
      destruct (Nat.ltb_spec (length evs) (2 ^ (m + lev evs))) as [Hx|Hx].
      + replace (P (lev evs) 0 evs / P (lev evs) 0 evs) with 1 by (field; lra). rewrite Rmult_1_r. exact Hb.
      + rewrite (ptw_prob_short M mk m (lev evs) 0 evs) by apply levels_fit.
        pose proof (steps_seq_prob_pos M A okh okw Inv HS (mk 0) evs (Hmk 0) Hev) as Hq.
        destruct (lev evs) as [|d] eqn:Ed.
        * cbn [ptw_prob]. cbn [pred] in *. replace (seq_prob M (mk 0) evs / (/ 2 * seq_prob M (mk 0) evs + / 2 * seq_prob M (mk 0) evs)) with 1 by (field; lra). lra.
        * pose proof (half_base d 0 evs Hev) as Hhb. set (x := P (Datatypes.S d) 0 evs) in *.
          set (q := seq_prob M (mk 0) evs) in *. cbn [pred] in *.
          assert (Hlo : 2 / 3 <= x / (/ 2 * q + / 2 * x)).
          { apply Rmult_le_reg_r with (/ 2 * q + / 2 * x); [lra|].
            replace (x / (/ 2 * q + / 2 * x) * (/ 2 * q + / 2 * x)) with x by (field; lra). lra. }
          assert (Hhi : x / (/ 2 * q + / 2 * x) <= 2).
          { apply Rmult_le_reg_r with (/ 2 * q + / 2 * x); [lra|].
            replace (x / (/ 2 * q + / 2 * x) * (/ 2 * q + / 2 * x)) with x by (field; lra). lra. }
          pose proof (pow_lt (2 / 3) d ltac:(lra)). pose proof (exp_pos (pt_adj s)).
          cbn [pow]. split.
          -- rewrite Rmult_comm. apply Rmult_le_compat; lra.
          -- rewrite (Rmult_comm 2). apply Rmult_le_compat; lra.
  Qed.

  Lemma ptw_unknown_length evs : Forall ok evs ->
    exists s l, feed (fun t => ptw_update M m (mk t)) 0 (ptw_init m (mk 0)) evs = Ok (s, l) /\
      - ln (P (lev evs) 0 evs) - INR (pred (lev evs)) * ln 2 <= - l <=
      - ln (P (lev evs) 0 evs) + INR (pred (lev evs)) * ln (3 / 2).
  Proof.
    intros Hev. destruct (adj_bounds evs Hev) as (s & Hf & (Hp & Hlp) & H1 & H2).
    exists s, (pt_lp s). split; [exact Hf|].
    pose proof (prep_fields _ _ _ _ _ _ _ Hp) as (_ & _ & _ & _ & Htlp).
    rewrite Hlp, <- Htlp, ln_exp.
    assert (E1 : ln ((2 / 3) ^ pred (lev evs)) = - (INR (pred (lev evs)) * ln (3 / 2))).
    { rewrite ln_pow by lra. replace (2 / 3) with (/ (3 / 2)) by field. rewrite ln_Rinv by lra. ring. }
    assert (E2 : ln (2 ^ pred (lev evs)) = INR (pred (lev evs)) * ln 2) by (apply ln_pow; lra).
    assert (L1 : ln ((2 / 3) ^ pred (lev evs)) <= pt_adj s).
    { rewrite <- (ln_exp (pt_adj s)). destruct H1 as [H1|H1]; [left; apply ln_increasing; [apply pow_lt; lra|exact H1]|rewrite H1; right; reflexivity]. }
    assert (L2 : pt_adj s <= ln (2 ^ pred (lev evs))).
    { rewrite <- (ln_exp (pt_adj s)) at 1. destruct H2 as [H2|H2]; [left; apply ln_increasing; [apply exp_pos|exact H2]|rewrite H2; right; reflexivity]. }
    rewrite E1 in L1. rewrite E2 in L2. lra.
  Qed.
End top.
