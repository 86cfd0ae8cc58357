(** ctw.py's PTW computes what model.py's node computes with minimal height 0. *)
From Coq Require Import Lra.
From Verif Require Import Model.CtwPTW Model.PTW Spec.PTWSpec Proofs.RealFacts Proofs.PyFacts Proofs.ProbFacts Proofs.PTWFacts Proofs.PTWTop Proofs.PTWNorm.
Open Scope R_scope.

Lemma lse_pair a b : logsumexp [a; b] = Ok (logsumexp2 a b).
Proof.
  rewrite logsumexp_ok by discriminate. cbn [map]. rewrite !Rsum_cons, Rsum_nil, Rplus_0_r.
  rewrite <- logsumexp2_spec. reflexivity.
Qed.

Lemma qlift_lift k : forall b x, qlift k b x = Ok (lift k b x).
Proof. induction k as [|k IH]; intros b x; cbn [qlift lift]; [reflexivity|]. rewrite lse_pair. cbn [bind]. apply IH. Qed.

Lemma lift_idem k x : lift k x x = x.
Proof.
  induction k as [|k IH]; cbn [lift]; [reflexivity|].
  replace (log_0_5 + logsumexp2 x x) with x; [exact IH|].
  apply exp_inj. rewrite mix_exp. lra.
Qed.

Lemma splitpoint_pow (t : nat) : (0 < t)%nat -> at_splitpoint t = true <-> t = (2 ^ Nat.log2 t)%nat.
Proof.
  intros Ht. unfold at_splitpoint. rewrite Z.eqb_eq.
  pose proof (Nat.log2_spec t Ht) as (Hlo & Hhi). set (k := Nat.log2 t) in *.
  assert (Ek : Z.of_nat (2 ^ k) = (2 ^ Z.of_nat k)%Z) by (rewrite Nat2Z.inj_pow; reflexivity).
  assert (Ek' : Z.of_nat (2 ^ S k) = (2 ^ (Z.of_nat k + 1))%Z) by (rewrite Nat2Z.inj_pow; f_equal; lia).
  split; intros H.
  - destruct (Nat.eq_dec t (2 ^ k)) as [E|Hne]; [exact E|exfalso].
    assert (Hb : forall x, (2 ^ Z.of_nat k <= x < 2 ^ (Z.of_nat k + 1))%Z -> Z.testbit x (Z.of_nat k) = true).
    { intros x Hx. assert (El : Z.log2 x = Z.of_nat k) by (apply Z.log2_unique; lia).
      rewrite <- El. apply Z.bit_log2. pose proof (Z.pow_pos_nonneg 2 (Z.of_nat k)). lia. }
    assert (Hf : Z.testbit (Z.land (Z.of_nat t) (Z.of_nat t - 1)) (Z.of_nat k) = true).
    { rewrite Z.land_spec, !Hb by lia. reflexivity. }
    rewrite H, Z.bits_0 in Hf. discriminate.
  - rewrite H, Ek. replace (2 ^ Z.of_nat k - 1)%Z with (Z.ones (Z.of_nat k)) by (rewrite Z.ones_equiv; lia).
    rewrite Z.land_ones by lia. apply Z.mod_same. pose proof (Z.pow_pos_nonneg 2 (Z.of_nat k)). lia.
Qed.

(** A node's height is the least that holds its [t] symbols; it is then full exactly at the
    split points. *)
Lemma split_full t h : (0 < t)%nat -> h = levels 0 t -> at_splitpoint t = (2 ^ h <=? t)%nat.
Proof.
  intros Ht ->. unfold levels. rewrite Nat.sub_0_r.
  apply Bool.eq_iff_eq_true. rewrite splitpoint_pow, Nat.leb_le by exact Ht.
  pose proof (Nat.log2_spec t Ht) as (Hlo & Hhi). split; intros H.
  - rewrite H at 1. rewrite Nat.log2_up_pow2 by lia. lia.
  - assert (t <= 2 ^ Nat.log2_up t)%nat.
    { destruct (Nat.le_gt_cases t 1); [pose proof (pow_pos (Nat.log2_up t)); lia|]. apply Nat.log2_up_spec. lia. }
    assert (E : t = (2 ^ Nat.log2_up t)%nat) by lia. rewrite E at 2. rewrite Nat.log2_pow2 by lia. exact E.
Qed.

Definition qnode_rec_ind {S} (Q : qnode S -> Prop)
  (H : forall b h l ll r t, match r with Some r' => Q r' | None => True end -> Q (QNode b h l ll r t)) :
  forall n, Q n :=
  fix go n := match n with
    | QNode b h l ll r t => H b h l ll r t (match r with Some r' => go r' | None => I end)
    end.

Section facts.
  Context {S : Type} (Q : probseq S).
  Notation M := (q_model Q).
  Hypothesis Hlaw : forall s a h w s' l, m_update M s a h w = Ok (s', l) -> q_lp Q s' = q_lp Q s + l.
  Variable fresh : S.
  Hypothesis H0 : q_lp Q fresh = 0.

  Fixpoint qsim (q : qnode S) (p : pnode S) {struct q} : Prop :=
    let '(QNode base height lp llp rch t) := q in
    p_base p = base /\ p_height p = height /\ p_count p = t /\ p_blp p = q_lp Q base /\
    p_llp p = llp /\ p_lp p = lp /\ height = levels 0 t /\
    match rch, p_right p with
    | None, None => (t <= 1)%nat
    | Some r, Some r' => qsim r r' /\ (0 < qn_t r)%nat /\ (1 < t)%nat
    | _, _ => False
    end.

  Lemma qsim_fields q p : qsim q p -> p_base p = qn_base q /\ p_height p = qn_height q /\
    p_count p = qn_t q /\ p_blp p = q_lp Q (qn_base q) /\ p_lp p = qn_lp q /\ qn_height q = levels 0 (qn_t q).
  Proof. destruct q; cbn. tauto. Qed.

  Lemma qsim_new : qsim (new_qnode fresh) (new_pnode 0 fresh).
  Proof. cbn. rewrite H0. repeat split; lia. Qed.

  Lemma qnode_update_sim : forall q p a w p', qsim q p ->
    pnode_update M 0 fresh p a [] w = Ok p' ->
    exists q', qnode_update Q fresh q a w = Ok q' /\ qsim q' p' /\ (0 < qn_t q')%nat.
  Proof.
    intros q p a w p' Hs. revert p p' Hs.
    induction q as [base height lp llp rch t IH] using qnode_rec_ind.
    intros [pbase pheight pcount pblp pllp plp pr] p' Hs Hu.
    cbn [qsim p_base p_height p_count p_blp p_llp p_lp p_right] in Hs.
    destruct Hs as (-> & -> & -> & -> & -> & -> & Hh & Hr).
    cbn [pnode_update qnode_update] in *. rewrite complete_spec in Hu. cbn [p_height p_count] in Hu.
    destruct t as [|t'].
    - (* first symbol *)
      destruct (Nat.leb_spec (2 ^ height) 0) as [Hx|_]; [pose proof (pow_pos height); lia|].
      destruct (m_update M base a [] w) as [[base' l]|] eqn:Eb; cbn [bind] in *; [|discriminate].
      destruct rch as [r|]; destruct pr as [r'|]; try contradiction; [exfalso; lia|].
      injection Hu as <-. eexists. split; [reflexivity|]. pose proof (Hlaw _ _ _ _ _ _ Eb) as El.
      subst height. cbn. rewrite El. repeat split; lia.
    - set (t := Datatypes.S t') in *.
      rewrite (split_full t height) by (unfold t; lia || exact Hh).
      destruct (Nat.leb_spec (2 ^ height) t) as [Hx|Hx].
      + destruct (m_update M base a [] w) as [[base' l]|] eqn:Eb; cbn [bind] in *; [|discriminate].
        destruct (m_update M fresh a [] w) as [[rb rl]|] eqn:Er; cbn [bind] in *; [|discriminate].
        pose proof (Hlaw _ _ _ _ _ _ Eb) as El. pose proof (Hlaw _ _ _ _ _ _ Er) as Erl. rewrite H0 in Erl.
        rewrite qlift_lift. cbn [bind qn_height qn_base qn_lp]. rewrite lse_pair. cbn [bind].
        injection Hu as <-. eexists. split; [reflexivity|].
        rewrite Erl, El, Rplus_0_l. cbn [qsim p_base p_height p_count p_blp p_llp p_lp p_right qn_t].
        assert (Hlev : Datatypes.S height = levels 0 (Datatypes.S t)).
        { subst height. rewrite levels_S. destruct (Nat.ltb_spec t (2 ^ (0 + levels 0 t))) as [Hy|Hy]; [|reflexivity].
          rewrite Nat.add_0_l in Hy. lia. }
        repeat split; try lia; try exact Hlev; try (rewrite El; reflexivity); try (rewrite Erl, Rplus_0_l; reflexivity).
      + destruct (m_update M base a [] w) as [[base' l]|] eqn:Eb; cbn [bind] in *; [|discriminate].
        pose proof (Hlaw _ _ _ _ _ _ Eb) as El.
        assert (Hlev : height = levels 0 (Datatypes.S t)).
        { subst height. rewrite levels_S. destruct (Nat.ltb_spec t (2 ^ (0 + levels 0 t))) as [Hy|Hy]; [reflexivity|].
          rewrite Nat.add_0_l in Hy. lia. }
        destruct rch as [r|]; destruct pr as [r'|]; try contradiction.
        2:{ exfalso. assert (t = 1)%nat by lia. subst height. rewrite H in Hx. cbn in Hx. lia. }
        destruct Hr as (Hr & Hrt & Htt).
        destruct (pnode_update M 0 fresh r' a [] w) as [r2|] eqn:Ep; cbn [bind] in *; [|discriminate].
        destruct (IH _ _ Hr Ep) as (q2 & Eq & Hs2 & Ht2). rewrite Eq. cbn [bind].
        destruct (qsim_fields _ _ Hs2) as (F1 & F2 & F3 & F4 & F5 & F6).
        rewrite qlift_lift. cbn [bind]. rewrite lse_pair. cbn [bind]. injection Hu as <-.
        eexists. split; [reflexivity|]. cbn [qsim p_base p_height p_count p_blp p_llp p_lp p_right qn_t].
        rewrite F2, F4, F5, El. repeat split; try lia; try exact Hlev; exact Hs2.
  Qed.

  (** log_predict finds the value that update then reaches. *)
  Fixpoint pall (Inv : S -> Prop) (p : pnode S) : Prop :=
    let '(PNode base _ _ _ _ _ rch) := p in
    Inv base /\ match rch with Some r => pall Inv r | None => True end.

  Lemma qnode_predict (Inv : S -> Prop) : forall q p a w q', qsim q p -> pall Inv p -> Inv fresh ->
    qnode_update Q fresh q a w = Ok q' ->
    (forall s s' l, Inv s -> m_update M s a [] w = Ok (s', l) -> m_logp M s a [] = Ok l) ->
    qnode_log_predict Q fresh q a = Ok (qn_lp q' - qn_lp q) /\
    (exists l, m_logp M (qn_base q) a [] = Ok l /\ q_lp Q (qn_base q') = q_lp Q (qn_base q) + l) /\
    ((0 < qn_t q)%nat -> qn_height q' = (qn_height q + (if at_splitpoint (qn_t q) then 1 else 0))%nat) /\
    (qn_t q = 0%nat -> qn_height q' = qn_height q /\ qn_lp q' = q_lp Q (qn_base q')).
  Proof.
    intros q p a w q' Hs Hpa Hfr Hu Hag. revert p q' Hs Hpa Hu.
    induction q as [base height lp llp rch t IH] using qnode_rec_ind. intros p q' Hs Hpa Hu.
    cbn [qsim] in Hs. destruct Hs as (Hpb & _ & _ & _ & _ & _ & Hh & Hr).
    destruct p as [pbase ph pc pblp pllp plp prch]. cbn [p_base p_right] in *. subst pbase.
    destruct Hpa as (Hib & Hpar).
    cbn [qnode_update qnode_log_predict] in *.
    destruct (m_update M base a [] w) as [[base' l]|] eqn:Eb; cbn [bind] in *; [|discriminate].
    pose proof (Hlaw _ _ _ _ _ _ Eb) as El. rewrite (Hag _ _ _ Hib Eb). cbn [bind].
    destruct t as [|t'].
    - injection Hu as <-. cbn [qn_lp qn_base qn_t qn_height]. rewrite El.
      split; [reflexivity|]. split; [exists l; split; [apply (Hag _ _ _ Hib Eb)|reflexivity]|].
      split; [lia|]. intros _. split; reflexivity.
    - set (t := Datatypes.S t') in *. destruct (at_splitpoint t) eqn:Esp.
      + destruct (m_update M fresh a [] w) as [[rb rl]|] eqn:Er; cbn [bind] in *; [|discriminate].
        pose proof (Hlaw _ _ _ _ _ _ Er) as Erl. rewrite H0 in Erl. rewrite (Hag _ _ _ Hfr Er). cbn [bind].
        rewrite qlift_lift in *. cbn [bind qn_height qn_base qn_lp] in *. rewrite lse_pair in *. cbn [bind] in *.
        injection Hu as <-. cbn [qn_lp qn_base qn_t qn_height]. rewrite Erl, El, Rplus_0_l, Esp.
        replace (Datatypes.S height - 0 - 1)%nat with (Datatypes.S height - 1)%nat by lia.
        split; [reflexivity|]. split; [exists l; split; [apply (Hag _ _ _ Hib Eb)|reflexivity]|].
        split; [lia|]. intros E; unfold t in E; lia.
      + destruct rch as [r|]; [|discriminate].
        destruct prch as [pr|]; [|contradiction]. destruct Hr as (Hr & Hrt & _).
        destruct (qnode_update Q fresh r a w) as [r2|] eqn:Er; cbn [bind] in *; [|discriminate].
        destruct (IH pr r2 Hr Hpar eq_refl) as (E1 & (lr & E2 & E3) & E4 & _).
        rewrite E1. cbn [bind]. rewrite E2. cbn [bind].
        rewrite qlift_lift in *. cbn [bind] in *. rewrite lse_pair in *. cbn [bind] in *.
        injection Hu as <-. cbn [qn_lp qn_base qn_t qn_height]. rewrite El, E3, (E4 Hrt), Esp.
        replace (qn_lp r + (qn_lp r2 - qn_lp r)) with (qn_lp r2) by lra.
        replace (height - (qn_height r + (if at_splitpoint (qn_t r) then 1 else 0)) - 1)%nat
          with (height - qn_height r - (if at_splitpoint (qn_t r) then 1 else 0) - 1)%nat by lia.
        split; [reflexivity|]. split; [exists l; split; [apply (Hag _ _ _ Hib Eb)|reflexivity]|].
        split; [lia|]. intros E; unfold t in E; lia.
  Qed.

  Context (A : list Z) (okw : R -> Prop) (Inv : S -> Prop).
  Notation bare := (fun h : list Z => h = []).
  Hypothesis HS : steps M A bare okw Inv.
  Hypothesis Hinv : Inv fresh.
  Notation ok := (ok_event A bare okw).
  Notation mk := (fun _ : nat => fresh).
  Notation P := (ptw_prob M mk 0).

  Lemma prep_pall : forall n d s evs, prep M mk 0 d n s evs -> Forall ok evs -> pall Inv n.
  Proof.
    induction n as [base height count blp llp lp rch IH] using pnode_rec_ind. intros d s evs Hp Hev.
    destruct Hp as (Hrun & _ & _ & _ & _ & Hr). cbn [pall]. split.
    - exact (run_inv M A bare okw Inv HS mk (fun _ => Hinv) s evs base blp Hev Hrun).
    - destruct rch as [r|]; [|exact I]. destruct Hr as (d' & dr & _ & _ & _ & _ & Hpr).
      exact (IH _ _ _ Hpr (Forall_skipn _ _ _ Hev)).
  Qed.

  Definition qrep (s : qptw) (evs : list event) : Prop :=
    exists n, qsim (qp_tree s) n /\ prep M mk 0 (levels 0 (length evs)) n 0 evs /\
              exp (qp_lp s) = P (qp_height s) 0 evs.

  Lemma qrep_init H : qrep (qptw_init fresh H) [].
  Proof.
    exists (new_pnode 0 fresh). split; [apply qsim_new|]. split; [apply (prep_new M mk 0 0)|].
    cbn. rewrite exp_0. symmetry. apply ptw_prob_nil.
  Qed.

  Lemma qtree_step s evs e : qrep s evs -> Forall ok evs -> ok e ->
    exists n q', qnode_update Q fresh (qp_tree s) (ev_sym e) (ev_wt e) = Ok q' /\ qsim q' n /\
      prep M mk 0 (levels 0 (Datatypes.S (length evs))) n 0 (evs ++ [e]).
  Proof.
    intros (n & Hs & Hp & _) Hev He.
    destruct (tree_step M A bare okw Inv HS mk (fun _ => Hinv) 0 n evs e Hp Hev He) as (n' & Hu & Hp').
    assert (Hh : ev_hist e = []) by apply He. rewrite Hh in Hu.
    destruct (qnode_update_sim _ _ _ _ _ Hs Hu) as (q' & Eq & Hs' & _). eauto.
  Qed.

  Lemma q_lift H n q evs : qsim q n -> prep M mk 0 (levels 0 (length evs)) n 0 evs ->
    (length evs <= 2 ^ H)%nat -> exp (lift (H - qn_height q) (q_lp Q (qn_base q)) (qn_lp q)) = P H 0 evs.
  Proof.
    intros Hs Hp Hl. destruct (qsim_fields _ _ Hs) as (F1 & F2 & F3 & F4 & F5 & F6).
    rewrite <- F2, <- F4, <- F5. rewrite (fixed_lift M Inv mk (fun _ => Hinv) 0 H n evs Hp Hl), Nat.sub_0_r. reflexivity.
  Qed.

  Lemma qptw_step s evs e : qrep s evs -> Forall ok evs -> ok e -> (length evs < 2 ^ qp_height s)%nat ->
    exists s', qptw_update Q fresh s (ev_sym e) (ev_hist e) (ev_wt e) = Ok (s', qp_lp s' - qp_lp s) /\
      qrep s' (evs ++ [e]) /\ qp_height s' = qp_height s.
  Proof.
    intros Hr Hev He Hl. destruct (qtree_step s evs e Hr Hev He) as (n & q' & Hu & Hs & Hp).
    assert (Hlen : length (evs ++ [e]) = Datatypes.S (length evs)) by (rewrite app_length; cbn; lia).
    unfold qptw_update. rewrite Hu. cbn [bind].
    pose proof (prep_fields _ _ _ _ _ _ _ Hp) as (_ & Hh & _ & _ & _).
    destruct (qsim_fields _ _ Hs) as (_ & F2 & _).
    replace (qn_height q' <=? qp_height s)%nat with true.
    2:{ symmetry. apply Nat.leb_le. rewrite <- F2, Hh. cbn [Nat.add]. apply levels_le. cbn [Nat.add]. lia. }
    rewrite qlift_lift. cbn [bind]. eexists (QPTW _ _ q'). split; [reflexivity|]. split; [|reflexivity].
    exists n. rewrite Hlen. split; [exact Hs|]. split; [exact Hp|]. cbn [qp_lp qp_height].
    apply q_lift with n; rewrite ?Hlen; [exact Hs|exact Hp|lia].
  Qed.

  Lemma qptw_run H evs : Forall ok evs -> (length evs <= 2 ^ H)%nat ->
    exists s, run (QPTW_model Q fresh) (qptw_init fresh H) evs = Ok (s, qp_lp s) /\ qrep s evs /\ qp_height s = H.
  Proof.
    induction evs as [|e evs IH] using rev_ind; intros Hev Hl.
    - exists (qptw_init fresh H). split; [reflexivity|]. split; [apply qrep_init|reflexivity].
    - apply Forall_app in Hev as (Hev & He). inversion He as [|x y He1 _]; subst.
      rewrite app_length in Hl; cbn [length] in Hl.
      destruct (IH Hev) as (s & Hf & Hr & Hh); [lia|].
      destruct (qptw_step s evs e Hr Hev He1) as (s' & Hu & Hr' & Hh'); [rewrite Hh; lia|].
      exists s'. split; [|split; [exact Hr'|congruence]].
      rewrite (run_snoc (QPTW_model Q fresh) _ _ _ _ _ s' _ Hf Hu). do 2 f_equal. lra.
  Qed.

  Lemma qptw_recursion H evs : Forall ok evs -> (length evs <= 2 ^ H)%nat ->
    exists s l, run (QPTW_model Q fresh) (qptw_init fresh H) evs = Ok (s, l) /\ exp l = P H 0 evs.
  Proof.
    intros Hev Hl. destruct (qptw_run H evs Hev Hl) as (s & Hf & (n & _ & _ & He) & Hh).
    exists s, (qp_lp s). split; [exact Hf|]. rewrite He, Hh. reflexivity.
  Qed.

  (** The next symbol after 2^H symbols trips the assertion. *)
  Lemma qptw_full H evs e : Forall ok evs -> ok e -> length evs = (2 ^ H)%nat ->
    exists s l, run (QPTW_model Q fresh) (qptw_init fresh H) evs = Ok (s, l) /\
      qptw_update Q fresh s (ev_sym e) (ev_hist e) (ev_wt e) = Err AssertionError.
  Proof.
    intros Hev He Hl. destruct (qptw_run H evs Hev) as (s & Hf & Hr & Hh); [lia|].
    exists s, (qp_lp s). split; [exact Hf|].
    destruct (qtree_step s evs e Hr Hev He) as (n & q' & Hu & Hs & Hp).
    unfold qptw_update. rewrite Hu. cbn [bind].
    pose proof (prep_fields _ _ _ _ _ _ _ Hp) as (_ & Hhn & _ & _ & _).
    destruct (qsim_fields _ _ Hs) as (_ & F2 & _).
    replace (qn_height q' <=? qp_height s)%nat with false; [reflexivity|].
    symmetry. apply Nat.leb_gt. rewrite <- F2, Hhn, Hh, Hl. cbn [Nat.add].
    assert (~ (levels 0 (Datatypes.S (2 ^ H)) <= H)%nat) as Hn by (rewrite <- levels_le; cbn [Nat.add]; lia). lia.
  Qed.

  Lemma qptw_agree H evs e : Forall ok evs -> ok e -> (length evs < 2 ^ H)%nat ->
    exists s l s' l', run (QPTW_model Q fresh) (qptw_init fresh H) evs = Ok (s, l) /\
      qptw_update Q fresh s (ev_sym e) (ev_hist e) (ev_wt e) = Ok (s', l') /\
      qptw_log_predict Q fresh s (ev_sym e) (ev_hist e) = Ok l'.
  Proof.
    intros Hev He Hl. destruct (qptw_run H evs Hev) as (s & Hf & Hr & Hh); [lia|].
    rewrite <- Hh in Hl.
    destruct (qptw_step s evs e Hr Hev He Hl) as (s' & Hu & Hr' & Hh').
    exists s, (qp_lp s), s', (qp_lp s' - qp_lp s). split; [exact Hf|]. split; [exact Hu|].
    destruct Hr as (n & Hs & Hp & _). unfold qptw_update in Hu. unfold qptw_log_predict.
    destruct (qnode_update Q fresh (qp_tree s) (ev_sym e) (ev_wt e)) as [q'|] eqn:Eq; cbn [bind] in Hu; [|discriminate].
    destruct (Nat.leb_spec (qn_height q') (qp_height s)) as [Hle|]; [|discriminate].
    rewrite qlift_lift in Hu. cbn [bind] in Hu. injection Hu as Hs'.
    assert (Hag : forall s s' l, Inv s -> m_update M s (ev_sym e) [] (ev_wt e) = Ok (s', l) -> m_logp M s (ev_sym e) [] = Ok l).
    { intros s1 s2 l1 Hi Hm. destruct He as (Ha & _ & Hw).
      destruct (HS s1 _ _ _ Hi Ha eq_refl Hw) as (s3 & l3 & E1 & E2 & _). congruence. }
    destruct (qnode_predict Inv _ _ _ _ _ Hs (prep_pall _ _ _ _ Hp Hev) Hinv Eq Hag) as (E1 & (lb & E2 & E3) & E4 & E5).
    rewrite E1. cbn [bind]. rewrite E2. cbn [bind]. rewrite qlift_lift. cbn [bind]. do 2 f_equal.
    subst s'. cbn [qp_lp]. rewrite <- E3. replace (qn_lp (qp_tree s) + (qn_lp q' - qn_lp (qp_tree s))) with (qn_lp q') by lra.
    destruct (qn_t (qp_tree s)) as [|t'] eqn:Et.
    - destruct (E5 eq_refl) as (_ & E6). rewrite E6, !lift_idem. reflexivity.
    - rewrite (E4 ltac:(lia)). reflexivity.
  Qed.
End facts.
