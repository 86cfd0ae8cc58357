(** Normalisation of PTW updates. *)
From Coq Require Import Lra.
From Verif Require Import Model.PTW Spec.PTWSpec Proofs.RealFacts Proofs.PyFacts Proofs.ProbFacts Proofs.PTWFacts Proofs.PTWTop.
Open Scope R_scope.

Section norm.
  Context {S : Type} (M : model S).
  Context (A : list Z) (okh : list Z -> Prop) (okw : R -> Prop) (Inv : S -> Prop).
  Hypothesis HL : lawful M A okh okw Inv.
  Variable mk : nat -> S.
  Hypothesis Hmk : forall t, Inv (mk t).
  Variable m : nat.
  Notation ok := (ok_event A okh okw).
  Notation P := (ptw_prob M mk m).
  Let HS := law_step _ _ _ _ _ HL.

  Lemma seq_prob_sum s evs h w : Inv s -> Forall ok evs -> okh h -> okw w ->
    Rsum (map (fun a => seq_prob M s (evs ++ [Event a h w])) A) = seq_prob M s evs.
  Proof.
    intros Hs Hev Hh Hw. destruct (steps_run M A okh okw Inv HS s evs Hs Hev) as (s' & l & Hr & Hi).
    rewrite (seq_prob_run _ _ _ _ _ Hr).
    rewrite (Rsum_map_ext _ (fun a => exp l * seq_prob M s' [Event a h w])).
    - rewrite Rsum_scal_l. rewrite (lawful_update_norm M A okh okw Inv HL s' h w Hi Hh Hw). lra.
    - intros a _. apply seq_prob_run_app. exact Hr.
  Qed.

  Lemma ptw_prob_sum d : forall s evs h w, Forall ok evs -> okh h -> okw w ->
    (length evs < 2 ^ (m + d))%nat ->
    Rsum (map (fun a => P d s (evs ++ [Event a h w])) A) = P d s evs.
  Proof.
    induction d as [|d IH]; intros s evs h w Hev Hh Hw Hl; cbn [ptw_prob].
    - apply seq_prob_sum; auto.
    - rewrite Rsum_plus, !Rsum_scal_l. rewrite seq_prob_sum by auto. f_equal. f_equal.
      destruct (Nat.lt_ge_cases (length evs) (2 ^ (m + d))) as [Hlt|Hge].
      + rewrite (Rsum_map_ext _ (fun a => P d s (evs ++ [Event a h w]))).
        * rewrite IH by auto. rewrite firstn_all2, skipn_all2 by lia. rewrite ptw_prob_nil. lra.
        * intros a _. rewrite firstn_all2, skipn_all2 by (rewrite app_length; cbn; lia).
          rewrite ptw_prob_nil. lra.
      + rewrite (Rsum_map_ext _ (fun a => P d s (firstn (2 ^ (m + d)) evs) *
            P d (s + 2 ^ (m + d)) (skipn (2 ^ (m + d)) evs ++ [Event a h w]))).
        * rewrite Rsum_scal_l, IH; auto.
          { apply Forall_skipn, Hev. }
          rewrite skipn_length. replace (m + Datatypes.S d)%nat with (Datatypes.S (m + d)) in Hl by lia.
          cbn [Nat.pow] in Hl. lia.
        * intros a _. rewrite firstn_snoc, skipn_snoc by exact Hge. reflexivity.
  Qed.

  (** In every reachable state the update probabilities sum to one. *)
  Lemma ptw_update_norm evs s l h w : Forall ok evs -> okh h -> okw w ->
    feed (fun t => ptw_update M m (mk t)) 0 (ptw_init m (mk 0)) evs = Ok (s, l) ->
    Rsum (map (fun a => upd_prob (ptw_update M m (mk (length evs))) s a h w) A) = 1.
  Proof.
    intros Hev Hh Hw Hf. destruct (feed_rep M A okh okw Inv HS mk Hmk m evs s l Hev Hf) as (Hr & _).
    set (d := levels m (Datatypes.S (length evs))).
    pose proof (ptw_prob_pos M A okh okw Inv HS mk Hmk m d 0 evs Hev) as Hp.
    rewrite (Rsum_map_ext _ (fun a => P d 0 (evs ++ [Event a h w]) * / P d 0 evs)).
    - rewrite Rsum_scal_r, ptw_prob_sum; auto; [field; lra|].
      pose proof (levels_fit m (Datatypes.S (length evs))). fold d in H. lia.
    - intros a Ha. assert (He : ok (Event a h w)) by (repeat split; assumption).
      destruct (ptw_step M A okh okw Inv HS mk Hmk m s evs (Event a h w) Hr Hev He) as (s' & Hu & _ & Hq & _).
      unfold upd_prob. cbn [ev_sym ev_hist ev_wt] in Hu. rewrite Hu. exact Hq.
  Qed.

  Lemma ptwf_update_norm len evs s l h w : Forall ok evs -> okh h -> okw w -> (length evs < len)%nat ->
    feed (fun t => ptwf_update M m (mk t)) 0 (ptwf_init m len (mk 0)) evs = Ok (s, l) ->
    Rsum (map (fun a => upd_prob (ptwf_update M m (mk (length evs))) s a h w) A) = 1.
  Proof.
    intros Hev Hh Hw Hlen Hf.
    assert (Hlf : (length evs <= 2 ^ fixed_height_of len)%nat) by (apply len_fixed; lia).
    assert (Hlf' : (length evs < 2 ^ fixed_height_of len)%nat).
    { pose proof (len_fixed len len). lia. }
    destruct (ptwf_feed M A okh okw Inv HS mk Hmk m len evs Hev Hlf) as (s' & Hf' & Hr & HH).
    rewrite Hf in Hf'. injection Hf' as <- _.
    set (d := (fixed_height_of len - m)%nat).
    pose proof (ptw_prob_pos M A okh okw Inv HS mk Hmk m d 0 evs Hev) as Hp.
    rewrite (Rsum_map_ext _ (fun a => P d 0 (evs ++ [Event a h w]) * / P d 0 evs)).
    - rewrite Rsum_scal_r, ptw_prob_sum; auto; [field; lra|].
      eapply Nat.lt_le_trans; [exact Hlf'|]. apply Nat.pow_le_mono_r; lia.
    - intros a Ha. assert (He : ok (Event a h w)) by (repeat split; assumption).
      destruct (ptwf_step M A okh okw Inv HS mk Hmk m s evs (Event a h w) Hr Hev He) as (s' & Hu & (_ & Hr') & HH');
        [rewrite HH; exact Hlf'|].
      unfold upd_prob. cbn [ev_sym ev_hist ev_wt] in Hu. rewrite Hu. rewrite exp_minus, Hr'.
      destruct Hr as (_ & Hr). rewrite Hr, HH', HH. reflexivity.
  Qed.
End norm.
