(** ctw.py's PTW with a factory that may return a different model each time. *)
From Coq Require Import Lra.
From Verif Require Import Model.CtwPTW Model.CtwFMN Model.PTW Spec.PTWSpec Proofs.RealFacts Proofs.PyFacts Proofs.ProbFacts Proofs.PTWFacts Proofs.PTWTop Proofs.PTWNorm Proofs.PTWMixture Proofs.CtwPTWFacts.
Open Scope R_scope.

Section var.
  Context {S : Type} (Q : probseq S).
  Notation M := (q_model Q).
  Hypothesis Hlaw : forall s a h w s' l, m_update M s a h w = Ok (s', l) -> q_lp Q s' = q_lp Q s + l.
  Variable mk : nat -> S.
  Hypothesis Hmk0 : forall t, q_lp Q (mk t) = 0.
  Context (A : list Z) (okw : R -> Prop) (Inv : S -> Prop).
  Notation bare := (fun h : list Z => h = []).
  Hypothesis HS : steps M A bare okw Inv.
  Hypothesis Hinv : forall t, Inv (mk t).
  Notation ok := (ok_event A bare okw).
  Notation P := (ptw_prob M mk 0).
  Notation qsim := (qsim Q).

  Lemma vprep_pall : forall n d s evs, prep M mk 0 d n s evs -> Forall ok evs -> pall Inv n.
  Proof.
    induction n as [base height count blp llp lp rch IH] using pnode_rec_ind. intros d s evs Hp Hev.
    destruct Hp as (Hrun & _ & _ & _ & _ & Hr). cbn [pall]. split.
    - exact (run_inv M A bare okw Inv HS mk Hinv s evs base blp Hev Hrun).
    - destruct rch as [r|]; [|exact I]. destruct Hr as (d' & dr & _ & _ & _ & _ & Hpr).
      exact (IH _ _ _ Hpr (Forall_skipn _ _ _ Hev)).
  Qed.

  Definition vrep (s : qptw) (evs : list event) : Prop :=
    exists n, qsim (qp_tree s) n /\ prep M mk 0 (levels 0 (length evs)) n 0 evs /\
              exp (qp_lp s) = P (qp_height s) 0 evs.

  Lemma vrep_init H : vrep (qptw_init (mk 0%nat) H) [].
  Proof.
    exists (new_pnode 0 (mk 0%nat)). split; [apply (qsim_new Q Hlaw), Hmk0|]. split; [apply (prep_new M mk 0 0)|].
    cbn. rewrite exp_0. symmetry. apply ptw_prob_nil.
  Qed.

  Lemma vtree_step s evs e : vrep s evs -> Forall ok evs -> ok e ->
    exists n q', qnode_update Q (mk (length evs)) (qp_tree s) (ev_sym e) (ev_wt e) = Ok q' /\ qsim q' n /\
      prep M mk 0 (levels 0 (Datatypes.S (length evs))) n 0 (evs ++ [e]).
  Proof.
    intros (n & Hs & Hp & _) Hev He.
    destruct (tree_step M A bare okw Inv HS mk Hinv 0 n evs e Hp Hev He) as (n' & Hu & Hp').
    assert (Hh : ev_hist e = []) by apply He. rewrite Hh in Hu.
    destruct (qnode_update_sim Q Hlaw (mk (length evs)) (Hmk0 _) _ _ _ _ _ Hs Hu) as (q' & Eq & Hs' & _). eauto.
  Qed.

  Lemma v_lift H n q evs : qsim q n -> prep M mk 0 (levels 0 (length evs)) n 0 evs ->
    (length evs <= 2 ^ H)%nat -> exp (lift (H - qn_height q) (q_lp Q (qn_base q)) (qn_lp q)) = P H 0 evs.
  Proof.
    intros Hs Hp Hl. destruct (qsim_fields _ _ _ Hs) as (F1 & F2 & F3 & F4 & F5 & F6).
    rewrite <- F2, <- F4, <- F5. rewrite (fixed_lift M Inv mk Hinv 0 H n evs Hp Hl), Nat.sub_0_r. reflexivity.
  Qed.

  Lemma v_step s evs e : vrep s evs -> Forall ok evs -> ok e -> (length evs < 2 ^ qp_height s)%nat ->
    exists s', qptw_update Q (mk (length evs)) s (ev_sym e) (ev_hist e) (ev_wt e) = Ok (s', qp_lp s' - qp_lp s) /\
      vrep s' (evs ++ [e]) /\ qp_height s' = qp_height s.
  Proof.
    intros Hr Hev He Hl. destruct (vtree_step s evs e Hr Hev He) as (n & q' & Hu & Hs & Hp).
    assert (Hlen : length (evs ++ [e]) = Datatypes.S (length evs)) by (rewrite app_length; cbn; lia).
    unfold qptw_update. rewrite Hu. cbn [bind].
    pose proof (prep_fields _ _ _ _ _ _ _ Hp) as (_ & Hh & _ & _ & _).
    destruct (qsim_fields _ _ _ Hs) as (_ & F2 & _).
    replace (qn_height q' <=? qp_height s)%nat with true.
    2:{ symmetry. apply Nat.leb_le. rewrite <- F2, Hh. cbn [Nat.add]. apply levels_le. cbn [Nat.add]. lia. }
    rewrite qlift_lift. cbn [bind]. eexists (QPTW _ _ q'). split; [reflexivity|]. split; [|reflexivity].
    exists n. rewrite Hlen. split; [exact Hs|]. split; [exact Hp|]. cbn [qp_lp qp_height].
    apply v_lift with n; rewrite ?Hlen; [exact Hs|exact Hp|lia].
  Qed.

  Lemma vrep_t s evs : vrep s evs -> qn_t (qp_tree s) = length evs.
  Proof.
    intros (n & Hs & Hp & _). destruct (qsim_fields _ _ _ Hs) as (_ & _ & F3 & _).
    pose proof (prep_fields _ _ _ _ _ _ _ Hp) as (_ & _ & Hc & _). lia.
  Qed.

  Lemma v_full s evs e : vrep s evs -> Forall ok evs -> ok e -> length evs = (2 ^ qp_height s)%nat ->
    qptw_update Q (mk (length evs)) s (ev_sym e) (ev_hist e) (ev_wt e) = Err AssertionError.
  Proof.
    intros Hr Hev He Hl. destruct (vtree_step s evs e Hr Hev He) as (n & q' & Hu & Hs & Hp).
    unfold qptw_update. rewrite Hu. cbn [bind].
    pose proof (prep_fields _ _ _ _ _ _ _ Hp) as (_ & Hhn & _ & _ & _).
    destruct (qsim_fields _ _ _ Hs) as (_ & F2 & _).
    replace (qn_height q' <=? qp_height s)%nat with false; [reflexivity|].
    symmetry. apply Nat.leb_gt. rewrite <- F2, Hhn, Hl. cbn [Nat.add].
    assert (~ (levels 0 (Datatypes.S (2 ^ qp_height s)) <= qp_height s)%nat) as Hn by (rewrite <- levels_le; cbn [Nat.add]; lia). lia.
  Qed.

  (** log_predict: also when only some update would be the same. *)
  Lemma v_agree s evs e s' l : vrep s evs -> Forall ok evs -> ok e ->
    qptw_update Q (mk (length evs)) s (ev_sym e) (ev_hist e) (ev_wt e) = Ok (s', l) ->
    qptw_log_predict Q (mk (length evs)) s (ev_sym e) (ev_hist e) = Ok l.
  Proof.
    intros (n & Hs & Hp & _) Hev He Hu. unfold qptw_update in Hu. unfold qptw_log_predict.
    destruct (qnode_update Q (mk (length evs)) (qp_tree s) (ev_sym e) (ev_wt e)) as [q'|] eqn:Eq; cbn [bind] in Hu; [|discriminate].
    destruct (Nat.leb_spec (qn_height q') (qp_height s)) as [Hle|]; [|discriminate].
    rewrite qlift_lift in Hu. cbn [bind] in Hu. injection Hu as _ Hs'.
    assert (Hag : forall s s' l, Inv s -> m_update M s (ev_sym e) [] (ev_wt e) = Ok (s', l) -> m_logp M s (ev_sym e) [] = Ok l).
    { intros s1 s2 l1 Hi Hm. destruct He as (Ha & _ & Hw).
      destruct (HS s1 _ _ _ Hi Ha eq_refl Hw) as (s3 & l3 & E1 & E2 & _). congruence. }
    destruct (qnode_predict Q Hlaw (mk (length evs)) (Hmk0 _) Inv _ _ _ _ _ Hs (vprep_pall _ _ _ _ Hp Hev) (Hinv _) Eq Hag) as (E1 & (lb & E2 & E3) & E4 & E5).
    rewrite E1. cbn [bind]. rewrite E2. cbn [bind]. rewrite qlift_lift. cbn [bind]. f_equal.
    rewrite <- Hs'. rewrite <- E3. replace (qn_lp (qp_tree s) + (qn_lp q' - qn_lp (qp_tree s))) with (qn_lp q') by lra.
    destruct (qn_t (qp_tree s)) as [|t'] eqn:Et.
    - destruct (E5 eq_refl) as (_ & E6). rewrite E6, !lift_idem. reflexivity.
    - rewrite (E4 ltac:(lia)). reflexivity.
  Qed.

  (** The next probabilities sum to one. *)
  Lemma v_norm s evs w : lawful M A bare okw Inv -> vrep s evs -> Forall ok evs -> okw w -> (length evs < 2 ^ qp_height s)%nat ->
    Rsum (map (fun a => upd_prob (qptw_update Q (mk (length evs))) s a [] w) A) = 1.
  Proof.
    intros HL Hr Hev Hw Hl. pose proof Hr as (n & _ & _ & Hlp).
    pose proof (ptw_prob_pos M A bare okw Inv HS mk Hinv 0 (qp_height s) 0 evs Hev) as Hpos.
    rewrite (Rsum_map_ext _ (fun a => P (qp_height s) 0 (evs ++ [Event a [] w]) * / P (qp_height s) 0 evs)).
    - rewrite Rsum_scal_r, (ptw_prob_sum M A bare okw Inv HL mk Hinv 0 (qp_height s) 0 evs [] w Hev eq_refl Hw) by exact Hl.
      apply Rinv_r. lra.
    - intros a Ha. assert (He : ok (Event a [] w)) by (repeat split; assumption).
      destruct (v_step s evs _ Hr Hev He Hl) as (s' & Hu & (n' & _ & _ & Hlp') & Hh). cbn [ev_sym ev_hist ev_wt] in Hu.
      unfold upd_prob. rewrite Hu, exp_minus, Hlp, Hlp', Hh. reflexivity.
  Qed.

  (** What map returns: a base that was started at some time and fed since. *)
  Lemma qmax_score_in (l : list (R * S)) : forall b, In (qmax_score b l) (b :: l).
  Proof.
    induction l as [|x l IH]; intros b; cbn [qmax_score]; [left; reflexivity|].
    destruct (Rlt_dec (fst b) (fst x)); destruct (IH (if Rlt_dec (fst b) (fst x) then x else b)) as [H|H].
    all: destruct (Rlt_dec (fst b) (fst x)); try contradiction; cbn [In] in *; tauto.
  Qed.

  Lemma scores_base : forall q n d s evs left sc b, qsim q n -> prep M mk 0 d n s evs ->
    In (sc, b) (qnode_scores Q q left) ->
    exists k l, (k = 0 \/ k < length evs)%nat /\ run M (mk (s + k)%nat) (skipn k evs) = Ok (b, l).
  Proof.
    intros q. induction q as [base height lp llp rch t IH] using qnode_rec_ind.
    intros n d s evs left sc b Hs Hp Hin. destruct n as [pb ph pc pblp pllp plp pr].
    cbn [CtwPTWFacts.qsim p_base p_height p_count p_right] in Hs. destruct Hs as (-> & _ & -> & _ & _ & _ & _ & Hr).
    cbn [prep] in Hp. destruct Hp as (H1 & _ & Hc & _ & _ & Hpr).
    cbn [qnode_scores] in Hin. destruct Hin as [E|Hin].
    - injection E as _ <-. exists 0%nat, pblp. split; [left; reflexivity|]. rewrite Nat.add_0_r. exact H1.
    - destruct rch as [r|]; [|destruct Hin]. destruct pr as [r'|]; [|contradiction].
      destruct Hr as (Hr & _). destruct Hpr as (d' & dr & _ & _ & Hlt & _ & Hpr).
      destruct (IH _ _ _ _ _ _ _ Hr Hpr Hin) as (k & l & Hk & Hrun). rewrite skipn_length in Hk.
      exists (2 ^ (0 + d') + k)%nat, l. split; [subst t; lia|]. rewrite skipn_add in Hrun.
      rewrite Nat.add_assoc. exact Hrun.
  Qed.

  Lemma v_map s evs : vrep s evs -> exists b k l, qptw_map Q s = Ok b /\
    (k = 0 \/ k < length evs)%nat /\ run M (mk k) (skipn k evs) = Ok (b, l).
  Proof.
    intros (n & Hs & Hp & _). unfold qptw_map.
    destruct (qnode_scores Q (qp_tree s) 0) as [|x l] eqn:E; [destruct (qp_tree s); discriminate|].
    destruct (qmax_score x l) as [sc b] eqn:Em.
    destruct (scores_base (qp_tree s) n _ 0%nat evs 0 sc b Hs Hp) as (k & lk & Hk & Hr).
    { rewrite E, <- Em. apply qmax_score_in. }
    exists b, k, lk. split; [reflexivity|]. split; [exact Hk|exact Hr].
  Qed.
End var.
