(** The statements about ctw.py's CTW. *)
From Coq Require Import Lra FunctionalExtensionality.
From Verif Require Import Model.CtwCTW Spec.CtwSpec Spec.CTWSpec.
From Verif Require Import Proofs.RealFacts Proofs.PyFacts Proofs.ProbFacts Proofs.CTWFacts Proofs.CTWTop Proofs.CTWProps Proofs.CtwPTWFacts Proofs.CtwCTWFacts.
Open Scope R_scope.

Section top.
  Context {S : Type} (Q : probseq S).
  Notation M := (without_history (q_model Q)).
  Hypothesis Hlaw : forall s a h w s' l, m_update (q_model Q) s a h w = Ok (s', l) -> q_lp Q s' = q_lp Q s + l.
  Variable fresh : S.
  Hypothesis Hf0 : q_lp Q fresh = 0.
  Variable D : nat.
  Notation ctxD := (fun h => rev (recent D h)).
  Notation dflt := (mkcontext (Z.of_nat D)).
  Notation upd := (qobj_update Q fresh dflt).
  Notation prd := (qobj_log_predict Q fresh dflt).
  Notation updD := (qobj_update Q fresh ctxD).
  Notation prdD := (qobj_log_predict Q fresh ctxD).
  Notation cupd := (ctw_update_with M fresh false ctxD).
  Notation cprd := (ctw_log_predict_with M fresh false ctxD).

  Lemma ctxD_length h : length (rev (recent D h)) = D.
  Proof. rewrite rev_length. apply recent_length. Qed.

  Lemma dflt_pos : (0 < D)%nat -> dflt = ctxD.
  Proof.
    intros HD. apply functional_extensionality. intros h.
    rewrite <- (mkcontext_recent D h HD), rev_involutive. reflexivity.
  Qed.

  (** At depth 0 the context is not looked at. *)
  Lemma update_depth0 c c' q a w : qc_depth q = 0%Z -> qc_update Q fresh c q a w = qc_update Q fresh c' q a w.
  Proof.
    destruct q as [d lp base ch]. cbn [qc_depth]. intros ->.
    destruct c, c'; cbn [qc_update]; reflexivity.
  Qed.
  Lemma predict_depth0 c c' q a : qc_depth q = 0%Z -> qc_log_predict Q fresh c q a = qc_log_predict Q fresh c' q a.
  Proof.
    destruct q as [d lp base ch]. cbn [qc_depth]. intros ->.
    destruct c, c'; cbn [qc_log_predict]; reflexivity.
  Qed.

  Lemma csim_depth n q c : csim Q n q c -> qc_depth q = Z.of_nat n.
  Proof. intros H; destruct H; reflexivity. Qed.

  Lemma upd_default s a w : qc_depth (qo_root s) = Z.of_nat D -> upd s a w = updD s a w.
  Proof.
    intros Hs. destruct (Nat.eq_dec D 0) as [E|E]; [|rewrite dflt_pos by lia; reflexivity].
    unfold qobj_update. rewrite (update_depth0 _ (rev (rev (recent D (qo_history s))))); [reflexivity|].
    rewrite Hs, E. reflexivity.
  Qed.
  Lemma prd_default s a : qc_depth (qo_root s) = Z.of_nat D -> prd s a = prdD s a.
  Proof.
    intros Hs. destruct (Nat.eq_dec D 0) as [E|E]; [|rewrite dflt_pos by lia; reflexivity].
    unfold qobj_log_predict. rewrite (predict_depth0 _ (rev (rev (recent D (qo_history s))))); [reflexivity|].
    rewrite Hs, E. reflexivity.
  Qed.

  Lemma hexec_default ops : forall s c, osim Q D s c -> hexec upd prd s ops = hexec updD prdD s ops.
  Proof.
    induction ops as [|o ops IH]; intros s c [Hs Hu]; [reflexivity|]. cbn [hexec].
    pose proof (csim_depth _ _ _ Hs) as Hd.
    destruct o as [a w|a]; cbn [do_hop].
    - rewrite upd_default by exact Hd.
      pose proof (obj_update_sim Q Hlaw fresh Hf0 D ctxD ctxD_length s c a w Hs) as G.
      destruct (cupd c a _ w) as [[c1 r]|e]; destruct (updD s a w) as [[s1 r']|e']; cbn [same_result] in G; try contradiction; [|reflexivity].
      cbn [fst snd bind] in *. destruct G as (G1 & _ & G3 & _).
      rewrite (IH s1 c1 (conj G1 (eq_trans G3 Hu))). reflexivity.
    - rewrite prd_default by exact Hd.
      pose proof (obj_predict_sim Q Hlaw fresh Hf0 D ctxD ctxD_length s c a Hs) as G.
      destruct (cprd c a _) as [[c1 r]|e]; destruct (prdD s a) as [[s1 r']|e']; cbn [same_result] in G; try contradiction; [|reflexivity].
      cbn [fst snd bind] in *. destruct G as (G1 & _ & G3 & _).
      rewrite (IH s1 c1 (conj G1 (eq_trans G3 Hu))). reflexivity.
  Qed.

  (** The same values, or the same exception, as model.py's CTW that is handed the history. *)
  Lemma same_as_model ops : (0 < D)%nat ->
    shown (hexec upd prd (qobj_init fresh (Z.of_nat D)) ops) =
    shown (exec (ctw_update M fresh false) (ctw_log_predict M fresh false) (ctw_init fresh (Z.of_nat D)) (with_history [] ops)).
  Proof.
    intros HD.
    rewrite (hexec_default ops _ _ (osim_init Q fresh Hf0 D)).
    rewrite (exec_default M fresh false D) by reflexivity. rewrite dflt_pos by exact HD.
    pose proof (exec_sim Q Hlaw fresh Hf0 D ctxD ctxD_length ops _ _ (osim_init Q fresh Hf0 D)) as G.
    cbn [qobj_init qo_history] in G. unfold shown.
    destruct (exec cupd cprd _ _) as [[c rs]|e]; destruct (hexec updD prdD _ ops) as [[s rs']|e'];
      cbn [same_result] in G; try contradiction; cbn [bind fst snd] in *.
    - destruct G as (_ & -> & _). reflexivity.
    - congruence.
  Qed.

  (** Clearing the history between sequences. *)
  Lemma exec_app_ops {T} (u : T -> Z -> list Z -> R -> result (T * R)) p l1 : forall s l2,
    exec u p s (l1 ++ l2) = do (s1, r1) <- exec u p s l1; do (s2, r2) <- exec u p s1 l2; Ok (s2, r1 ++ r2).
  Proof.
    induction l1 as [|o l1 IH]; intros s l2; cbn [app exec bind].
    - destruct (exec u p s l2) as [[? ?]|]; reflexivity.
    - destruct (do_op u p s o) as [[s1 r]|e]; cbn [bind]; [|reflexivity]. rewrite IH.
      destruct (exec u p s1 l1) as [[s2 r1]|e]; cbn [bind]; [|reflexivity].
      destruct (exec u p s2 l2) as [[s3 r2]|e]; reflexivity.
  Qed.

  Lemma episodes_same eps : forall s c, osim Q D s c -> qo_history s = [] ->
    same_result (fun x y => snd x = snd y) (exec cupd cprd c (flat_map (with_history []) eps))
      (episodes reset_history upd prd s eps).
  Proof.
    induction eps as [|ops eps IH]; intros s c Ho Hh; [reflexivity|]. cbn [flat_map episodes].
    rewrite exec_app_ops. rewrite (hexec_default ops _ _ Ho).
    pose proof (exec_sim Q Hlaw fresh Hf0 D ctxD ctxD_length ops _ _ Ho) as G. rewrite Hh in G.
    destruct (exec cupd cprd c (with_history [] ops)) as [[c1 rs]|e]; destruct (hexec updD prdD s ops) as [[s1 rs']|e'];
      cbn [same_result] in G; try contradiction; cbn [bind fst snd] in *; [|exact G].
    destruct G as ((Hs1 & Hu1) & -> & _). unfold reset_history at 1. rewrite Hu1. cbn [bind].
    specialize (IH (QObj (qo_root s1) [] true) c1 (conj Hs1 eq_refl) eq_refl).
    destruct (exec cupd cprd c1 _) as [[c2 r2]|e]; destruct (episodes _ _ _ _ _) as [[s2 r2']|e'];
      cbn [same_result] in IH; try contradiction; cbn [bind same_result fst snd] in *; [congruence|exact IH].
  Qed.

  Lemma episodes_as_model eps : (0 < D)%nat ->
    shown (episodes reset_history upd prd (qobj_init fresh (Z.of_nat D)) eps) =
    shown (exec (ctw_update M fresh false) (ctw_log_predict M fresh false) (ctw_init fresh (Z.of_nat D))
             (flat_map (with_history []) eps)).
  Proof.
    intros HD. rewrite (exec_default M fresh false D) by reflexivity. rewrite dflt_pos by exact HD.
    pose proof (episodes_same eps _ _ (osim_init Q fresh Hf0 D) eq_refl) as G. rewrite dflt_pos in G by exact HD.
    unfold shown. destruct (exec cupd cprd _ _) as [[c rs]|e]; destruct (episodes _ _ _ _ _) as [[s rs']|e'];
      cbn [same_result] in G; try contradiction; cbn [bind fst snd] in *; congruence.
  Qed.

  (** With a history kept outside (use_history before each call). *)
  Notation ext := (ext_exec (fun s h => use_history s h false) upd prd).

  Lemma ext_same ops : (0 < D)%nat -> forall s c, csim Q D (qo_root s) (ctw_tree c) -> ctw_depth c = Z.of_nat D ->
    shown (ext s ops) = shown (exec (ctw_update M fresh false) (ctw_log_predict M fresh false) c ops).
  Proof.
    intros HD s c Hs Hc. rewrite (exec_default M fresh false D) by exact Hc. rewrite dflt_pos by exact HD. clear Hc.
    revert s c Hs.
    induction ops as [|o ops IH]; intros s c Hs; [reflexivity|]. cbn [ext_exec exec].
    destruct o as [a h w|a h]; cbn [ext_op do_op].
    - pose proof (obj_update_sim Q Hlaw fresh Hf0 D ctxD ctxD_length (use_history s h false) c a w Hs) as G.
      cbn [use_history qo_history] in G.
      destruct (cupd c a h w) as [[c1 r]|e]; destruct (updD _ a w) as [[s1 r']|e']; cbn [same_result] in G; try contradiction;
        cbn [fst snd bind shown] in *; [|congruence].
      destruct G as (G1 & -> & _). specialize (IH s1 c1 G1). unfold shown in *.
      destruct (ext_exec _ _ _ s1 ops) as [[s2 rs]|]; destruct (exec _ _ c1 ops) as [[c2 rs']|]; cbn [bind] in *; congruence.
    - pose proof (obj_predict_sim Q Hlaw fresh Hf0 D ctxD ctxD_length (use_history s h false) c a Hs) as G.
      cbn [use_history qo_history] in G.
      destruct (cprd c a h) as [[c1 r]|e]; destruct (prdD _ a) as [[s1 r']|e']; cbn [same_result] in G; try contradiction;
        cbn [fst snd bind shown] in *; [|congruence].
      destruct G as (G1 & -> & _). specialize (IH s1 c1 G1). unfold shown in *.
      destruct (ext_exec _ _ _ s1 ops) as [[s2 rs]|]; destruct (exec _ _ c1 ops) as [[c2 rs']|]; cbn [bind] in *; congruence.
  Qed.

  Lemma external_same ops : (0 < D)%nat ->
    shown (ext (qobj_init fresh (Z.of_nat D)) ops) =
    shown (exec (ctw_update M fresh false) (ctw_log_predict M fresh false) (ctw_init fresh (Z.of_nat D)) ops).
  Proof. intros HD. apply ext_same; [exact HD| |reflexivity]. apply (csim_new Q fresh Hf0 D). Qed.

  (** ** What is learned *)
  Context (A : list Z) (okw : R -> Prop) (Inv : S -> Prop) (K : list Z).
  Notation bare := (fun h : list Z => h = []).
  Hypothesis HS : steps (q_model Q) A bare okw Inv.
  Hypothesis Hfresh : Inv fresh.
  Hypothesis HK : NoDup K.
  Hypothesis HK0 : In 0%Z K.
  Hypothesis HKA : incl A K.
  Hypothesis Hw1 : okw 1.

  Notation inK := (fun h : list Z => incl h K).
  Lemma steps_nh : steps M A inK okw Inv.
  Proof. intros s a h w Hs Ha _ Hw. apply (HS s a [] w Hs Ha eq_refl Hw). Qed.

  Lemma ctxD_ok h : incl h K -> length (rev (recent D h)) = D /\ incl (rev (recent D h)) K.
  Proof.
    intros Hh. split; [apply ctxD_length|]. intros x Hx. apply in_rev in Hx. apply (recent_incl K D h HK0 Hh x Hx).
  Qed.

  Notation P evs := (ctw_prob M fresh (recent D) K D [] evs).
  Notation rep := (ctw_rep M fresh A inK okw K ctxD D).
  Lemma ctx_twice : (fun h => rev (rev (recent D h))) = recent D.
  Proof. apply functional_extensionality. intros h. apply rev_involutive. Qed.

  (** The state after the events [evs], which left the history [h]. *)
  Definition reached (s : qobj (S := S)) (h : list Z) (evs : list event) : Prop :=
    qo_history s = h /\ incl h K /\ exists c, osim Q D s c /\ rep evs c.

  Lemma reached_lp s h evs : reached s h evs -> exp (qc_lp (qo_root s)) = P evs.
  Proof.
    intros (_ & _ & c & [Hs _] & Hr). rewrite <- (csim_lp _ _ _ _ Hs).
    rewrite (ctw_rep_lp M fresh A inK okw K HK _ D _ _ Hr), ctx_twice. apply exp_ln.
    rewrite <- ctx_twice. exact (ctw_prob_pos M fresh A inK okw K HK _ D _ _ Hr).
  Qed.

  Lemma reached_init : reached (qobj_init fresh (Z.of_nat D)) [] [].
  Proof.
    split; [reflexivity|]. split; [intros x []|]. eexists. split; [apply (osim_init Q fresh Hf0 D)|].
    apply ctw_rep_init.
  Qed.

  Lemma reached_step s h evs a w : reached s h evs -> In a A -> okw w ->
    exists s' s'' l, upd s a w = Ok (s', l) /\ prd s a = Ok (s'', l) /\
      reached s' (h ++ [a]) (evs ++ [Event a h w]) /\ reached s'' h evs /\
      l = qc_lp (qo_root s') - qc_lp (qo_root s).
  Proof.
    intros (Hh & HhK & c & [Hs Hu] & Hr) Ha Hw.
    destruct (ctw_step M fresh false A inK okw Inv steps_nh Hfresh K HK (fun k _ => eq_refl) ctxD D ctxD_ok evs c
                (Event a h w) Hr (conj Ha (conj HhK Hw))) as (c' & c'' & l & Eu & Ep & Hr' & Hr'' & _).
    cbn [ev_sym ev_hist ev_wt] in *.
    pose proof (csim_depth _ _ _ Hs) as Hd.
    rewrite (upd_default s a w Hd), (prd_default s a Hd).
    pose proof (obj_update_sim Q Hlaw fresh Hf0 D ctxD ctxD_length s c a w Hs) as G1. rewrite Hh, Eu in G1.
    pose proof (obj_predict_sim Q Hlaw fresh Hf0 D ctxD ctxD_length s c a Hs) as G2. rewrite Hh, Ep in G2.
    destruct (updD s a w) as [[s' l']|]; cbn [same_result] in G1; [|contradiction].
    destruct (prdD s a) as [[s'' l'']|]; cbn [same_result] in G2; [|contradiction].
    cbn [fst snd] in *. destruct G1 as (A1 & <- & A3 & _ & A5 & A4). destruct G2 as (B1 & <- & B3 & _ & _ & B4).
    rewrite Hu in A4.
    exists s', s'', l. split; [reflexivity|]. split; [reflexivity|]. split; [|split; [|exact A5]].
    - split; [exact A4|]. split.
      + apply incl_app; [exact HhK|]. intros x [<-|[]]. apply HKA, Ha.
      + exists c'. split; [split; [exact A1|congruence]|exact Hr'].
    - split; [exact B4|]. split; [exact HhK|]. exists c''. split; [split; [exact B1|congruence]|exact Hr''].
  Qed.

  Fixpoint hop_events (h : list Z) (ops : list hop) : list event :=
    match ops with
    | [] => []
    | HUpdate a w :: ops' => Event a h w :: hop_events (h ++ [a]) ops'
    | HPredict a :: ops' => hop_events h ops'
    end.

  Lemma reached_ops ops : forall s h evs, reached s h evs -> Forall (ok_hop A okw) ops ->
    exists s' rs, hexec upd prd s ops = Ok (s', rs) /\ reached s' (h ++ updated ops) (evs ++ hop_events h ops).
  Proof.
    induction ops as [|o ops IH]; intros s h evs Hr Hok.
    - exists s, []. cbn. rewrite !app_nil_r. auto.
    - inversion Hok as [|x y Ho Hok']; subst. destruct o as [a w|a]; cbn [ok_hop] in Ho; cbn [hexec do_hop hop_events].
      + destruct Ho as [Ha Hw]. destruct (reached_step s h evs a w Hr Ha Hw) as (s1 & s0 & l & Eu & _ & Hr1 & _).
        rewrite Eu. cbn [bind]. destruct (IH _ _ _ Hr1 Hok') as (s2 & rs & E & Hr2). rewrite E. cbn [bind].
        exists s2, (l :: rs). split; [reflexivity|].
        cbn [updated flat_map]. fold (updated ops). rewrite <- !app_assoc in Hr2. exact Hr2.
      + destruct (reached_step s h evs a 1 Hr Ho Hw1) as (s0 & s1 & l & _ & Ep & _ & Hr1 & _).
        rewrite Ep. cbn [bind]. destruct (IH _ _ _ Hr1 Hok') as (s2 & rs & E & Hr2). rewrite E. cbn [bind].
        exists s2, (l :: rs). split; [reflexivity|]. exact Hr2.
  Qed.

  Lemma updates_total sw : forall s h evs, reached s h evs -> Forall (fun p => In (fst p) A /\ okw (snd p)) sw ->
    exists s' rs, hexec upd prd s (updates sw) = Ok (s', rs) /\
      reached s' (h ++ map fst sw) (evs ++ events_after h sw) /\
      Rsum rs = qc_lp (qo_root s') - qc_lp (qo_root s).
  Proof.
    induction sw as [|[a w] sw IH]; intros s h evs Hr Hok.
    - exists s, []. cbn. rewrite !app_nil_r. split; [reflexivity|]. split; [exact Hr|]. lra.
    - inversion Hok as [|x y [Ha Hw] Hok']; subst. cbn [fst snd] in *. cbn [updates map fst snd hexec do_hop events_after].
      destruct (reached_step s h evs a w Hr Ha Hw) as (s1 & s0 & l & Eu & _ & Hr1 & _ & Hl).
      rewrite Eu. cbn [bind]. destruct (IH _ _ _ Hr1 Hok') as (s2 & rs & E & Hr2 & Hrs). unfold updates in E. rewrite E. cbn [bind].
      exists s2, (l :: rs). split; [reflexivity|]. rewrite <- !app_assoc in Hr2. split; [exact Hr2|].
      rewrite Rsum_cons, Hrs, Hl. lra.
  Qed.

  Lemma own_history_recursion sw : Forall (fun p => In (fst p) A /\ okw (snd p)) sw ->
    exists s rs, hexec upd prd (qobj_init fresh (Z.of_nat D)) (updates sw) = Ok (s, rs) /\
      exp (Rsum rs) = P (events_after [] sw) /\ qo_history s = map fst sw.
  Proof.
    intros Hok. destruct (updates_total sw _ _ _ reached_init Hok) as (s & rs & E & Hr & Hrs).
    exists s, rs. split; [exact E|]. cbn [app] in Hr. split; [|apply Hr].
    rewrite Hrs. cbn [qobj_init qo_root new_qctw qc_lp]. rewrite Rminus_0_r. exact (reached_lp _ _ _ Hr).
  Qed.

  (** log_predict says what update then returns, and the predictions are a distribution. *)
  Lemma own_history_agrees ops : Forall (ok_hop A okw) ops ->
    exists s rs, hexec upd prd (qobj_init fresh (Z.of_nat D)) ops = Ok (s, rs) /\
      forall a w, In a A -> okw w -> exists s' s'' l, upd s a w = Ok (s', l) /\ prd s a = Ok (s'', l).
  Proof.
    intros Hok. destruct (reached_ops ops _ _ _ reached_init Hok) as (s & rs & E & Hr).
    exists s, rs. split; [exact E|]. intros a w Ha Hw.
    destruct (reached_step _ _ _ a w Hr Ha Hw) as (s' & s'' & l & H1 & H2 & _). eauto.
  Qed.

  Lemma own_history_distribution ops : lawful (q_model Q) A bare okw Inv -> Forall (ok_hop A okw) ops ->
    exists s rs, hexec upd prd (qobj_init fresh (Z.of_nat D)) ops = Ok (s, rs) /\
      Rsum (map (fun a => match prd s a with Ok (_, l) => exp l | Err _ => 0 end) A) = 1.
  Proof.
    intros HL Hok. destruct (reached_ops ops _ _ _ reached_init Hok) as (s & rs & E & Hr).
    exists s, rs. split; [exact E|].
    destruct Hr as (Hh & HhK & c & [Hs Hu] & Hrep).
    assert (HN : forall s h, Inv s -> incl h K -> Rsum (map (fun a => pred_prob M s a h) A) = 1).
    { intros s0 h0 Hi _. apply (law_norm _ _ _ _ _ HL s0 [] Hi eq_refl). }
    rewrite <- (law_norm _ _ _ _ _ (ctw_lawful_with M fresh false A inK okw Inv steps_nh Hfresh K HK (fun k _ => eq_refl)
                 ctxD D ctxD_ok Hw1 HN) c ([] ++ updated ops) (ex_intro (fun evs => rep evs c) _ Hrep) HhK).
    apply Rsum_map_ext. intros a Ha. unfold pred_prob. cbn [CTW_model_with m_logp].
    rewrite (prd_default s a (csim_depth _ _ _ Hs)).
    pose proof (obj_predict_sim Q Hlaw fresh Hf0 D ctxD ctxD_length s c a Hs) as G. rewrite Hh in G.
    destruct (cprd c a _) as [[c1 r]|e]; destruct (prdD s a) as [[s1 r']|e']; cbn [same_result] in G; try contradiction; cbn [bind].
    - cbn [snd] in G. destruct G as (_ & -> & _). reflexivity.
    - reflexivity.
  Qed.

  (** Predicting changes nothing that can be seen later. *)
  Lemma own_history_transparent ops : forall s1 s2 h evs rs ops' rs',
    reached s1 h evs -> reached s2 h evs -> Forall (ok_hop A okw) ops ->
    (exists s', hexec upd prd s1 ops = Ok (s', rs)) -> hwithout ops rs ops' rs' ->
    exists s', hexec upd prd s2 ops' = Ok (s', rs').
  Proof.
    intros s1 s2 h evs rs ops' rs' H1 H2 Hok Hx HW. revert s1 s2 h evs H1 H2 Hok Hx.
    assert (Hval : forall s1 s2 h evs, reached s1 h evs -> reached s2 h evs -> qc_lp (qo_root s1) = qc_lp (qo_root s2)).
    { intros s1 s2 h evs R1 R2. apply exp_inj. rewrite (reached_lp _ _ _ R1), (reached_lp _ _ _ R2). reflexivity. }
    induction HW as [|o r ops rs ops' rs' HW IH|a r ops rs ops' rs' HW IH]; intros s1 s2 h evs H1 H2 Hok (s' & Hx).
    - exists s2. reflexivity.
    - inversion Hok as [|x y Ho Hok']; subst. cbn [hexec] in Hx |- *.
      destruct o as [a w|a]; cbn [ok_hop do_hop] in *.
      + destruct Ho as [Ha Hw].
        destruct (reached_step s1 h evs a w H1 Ha Hw) as (p1 & p0 & l & Eu & _ & Hr1 & _ & El).
        destruct (reached_step s2 h evs a w H2 Ha Hw) as (q1 & q0 & l' & Eu' & _ & Hr1' & _ & El').
        rewrite Eu in Hx. rewrite Eu'. cbn [bind] in *.
        destruct (hexec upd prd p1 ops) as [[s3 rs3]|] eqn:E3; cbn [bind] in Hx; [|discriminate].
        injection Hx as -> -> ->.
        destruct (IH p1 q1 _ _ Hr1 Hr1' Hok' (ex_intro _ _ E3)) as (s4 & E4). rewrite E4. cbn [bind].
        exists s4. do 2 f_equal. f_equal. rewrite El, El'.
        rewrite (Hval _ _ _ _ Hr1 Hr1'), (Hval _ _ _ _ H1 H2). reflexivity.
      + destruct (reached_step s1 h evs a 1 H1 Ho Hw1) as (p1 & p0 & l & _ & Eu & Hr1 & Hr0 & El).
        destruct (reached_step s2 h evs a 1 H2 Ho Hw1) as (q1 & q0 & l' & _ & Eu' & Hr1' & Hr0' & El').
        rewrite Eu in Hx. rewrite Eu'. cbn [bind] in *.
        destruct (hexec upd prd p0 ops) as [[s3 rs3]|] eqn:E3; cbn [bind] in Hx; [|discriminate].
        injection Hx as -> -> ->.
        destruct (IH p0 q0 _ _ Hr0 Hr0' Hok' (ex_intro _ _ E3)) as (s4 & E4). rewrite E4. cbn [bind].
        exists s4. do 2 f_equal. f_equal. rewrite El, El'.
        rewrite (Hval _ _ _ _ Hr1 Hr1'), (Hval _ _ _ _ H1 H2). reflexivity.
    - inversion Hok as [|x y Ho Hok']; subst. cbn [hexec ok_hop do_hop] in *.
      destruct (reached_step s1 h evs a 1 H1 Ho Hw1) as (p1 & p0 & l & _ & Eu & _ & Hr0 & _).
      rewrite Eu in Hx. cbn [bind] in Hx.
      destruct (hexec upd prd p0 ops) as [[s3 rs3]|] eqn:E3; cbn [bind] in Hx; [|discriminate].
      injection Hx as -> -> ->. exact (IH p0 s2 _ _ Hr0 H2 Hok' (ex_intro _ _ E3)).
  Qed.

  (** ** The sequence functions *)
  Lemma update_seq_total seq w : okw w -> forall s h evs, reached s h evs -> incl seq A ->
    exists s' rs, qobj_update_seq Q fresh dflt s seq w = Ok (s', Rsum rs) /\
      hexec upd prd s (map (fun a => HUpdate a w) seq) = Ok (s', rs).
  Proof.
    intros Hw s h evs Hr Hi. unfold qobj_update_seq.
    destruct (updates_total (map (fun a => (a, w)) seq) s h evs Hr) as (s' & rs & E & Hr' & Hrs).
    { apply Forall_map. apply Forall_forall. intros x Hx. cbn. auto. }
    unfold updates in E. rewrite map_map in E. cbn [fst snd] in E.
    exists s', rs. split; [|exact E]. rewrite Hrs.
    assert (G : qobj_update_loop Q fresh dflt s seq w = Ok s').
    { clear Hrs Hr' Hr Hi. revert s rs E. induction seq as [|a seq IH]; intros s rs E; cbn [map hexec do_hop qobj_update_loop] in *.
      - injection E as -> _. reflexivity.
      - destruct (upd s a w) as [[s1 l]|]; cbn [bind] in *; [|discriminate].
        destruct (hexec upd prd s1 _) as [[s2 rs2]|] eqn:E2; cbn [bind] in E; [|discriminate].
        injection E as -> _. exact (IH s1 rs2 E2). }
    rewrite G. reflexivity.
  Qed.

  Lemma predict_seq_ops seq : forall s h evs, reached s h evs -> incl seq A ->
    exists s' r, qobj_log_predict_seq Q fresh dflt s seq = Ok (s', r) /\ reached s' h evs /\
      exists rs, shown (ext s (predict_ops h seq)) = Ok rs /\ r = Rsum rs.
  Proof.
    intros s h evs Hr Hi.
    assert (G : forall seq h' root rv s1, incl seq A -> incl h' K -> qo_root s1 = root -> reached (QObj root h true) h evs ->
       exists root' rs, qobj_predict_loop Q fresh dflt root seq h' rv = Ok (root', rv + Rsum rs) /\
         reached (QObj root' h true) h evs /\ shown (ext s1 (predict_ops h' seq)) = Ok rs).
    { clear s Hr Hi seq. induction seq as [|a seq IH]; intros h' root rv s1 Hi Hh' Hs1 Hr; cbn [qobj_predict_loop predict_ops ext_exec].
      - exists root, []. rewrite Rsum_nil, Rplus_0_r. auto.
      - destruct Hr as (_ & HhK & c & [Hs _] & Hrep). cbn [qo_root] in Hs.
        assert (Ha : In a A) by (apply Hi; left; reflexivity).
        destruct (ctw_step M fresh false A inK okw Inv steps_nh Hfresh K HK (fun k _ => eq_refl) ctxD D ctxD_ok evs c
                (Event a h' 1) Hrep (conj Ha (conj Hh' Hw1))) as (c' & c'' & l & _ & Ep & _ & Hr'' & _).
        cbn [ev_sym ev_hist ev_wt] in *.
        pose proof (obj_predict_sim Q Hlaw fresh Hf0 D ctxD ctxD_length (QObj root h' true) c a Hs) as G.
        cbn [qo_history] in G. rewrite Ep in G.
        assert (E0 : qc_log_predict Q fresh (rev (dflt h')) root a = qc_log_predict Q fresh (rev (ctxD h')) root a).
        { destruct (Nat.eq_dec D 0) as [E|E]; [|rewrite dflt_pos by lia; reflexivity].
          apply predict_depth0. rewrite (csim_depth _ _ _ Hs), E. reflexivity. }
        rewrite E0. unfold qobj_log_predict in G. cbn [qo_root qo_history qo_update_history] in G.
        destruct (qc_log_predict Q fresh (rev (ctxD h')) root a) as [[root1 l1]|] eqn:E1; cbn [bind same_result] in G; [|contradiction].
        cbn [fst snd qo_root qo_update_history qo_history] in G. destruct G as (G1 & <- & _).
        cbn [bind].
        destruct (IH (h' ++ [a]) root1 (rv + l) (QObj root1 h' false)) as (root2 & rs & E2 & Hr2 & E3).
        + intros x Hx. apply Hi. right. exact Hx.
        + apply incl_app; [exact Hh'|]. intros x [<-|[]]. apply HKA, Ha.
        + reflexivity.
        + split; [reflexivity|]. split; [exact HhK|]. exists c''. split; [split; [exact G1|reflexivity]|exact Hr''].
        + exists root2, (l :: rs). rewrite E2, Rsum_cons. split; [do 2 f_equal; lra|]. split; [exact Hr2|].
          cbn [ext_op]. unfold qobj_log_predict at 1. cbn [use_history qo_history qo_root qo_update_history]. rewrite Hs1.
          rewrite E0. cbn [bind].
          unfold shown in *. destruct (ext (QObj root1 h' false) _) as [[s3 rs3]|]; cbn [bind] in *; [|discriminate].
          injection E3 as ->. reflexivity. }
    destruct Hr as (Hh & HhK & c & [Hs Hu] & Hrep). unfold qobj_log_predict_seq.
    destruct (G seq h (qo_root s) 0 s Hi HhK eq_refl) as (root' & rs & E & Hr' & E').
    { split; [reflexivity|]. split; [exact HhK|]. exists c. split; [split; [exact Hs|reflexivity]|exact Hrep]. }
    rewrite Hh, E. cbn [bind]. rewrite Hu. exists (QObj root' h true), (0 + Rsum rs). split; [reflexivity|].
    split; [exact Hr'|]. exists rs. split; [exact E'|lra].
  Qed.

  (** ** From the fresh object *)
  Notation init := (qobj_init fresh (Z.of_nat D)).
  Lemma own_transparent ops s rs ops' rs' : Forall (ok_hop A okw) ops ->
    hexec upd prd init ops = Ok (s, rs) -> hwithout ops rs ops' rs' ->
    exists s', hexec upd prd init ops' = Ok (s', rs').
  Proof.
    intros Hok E HW. apply (own_history_transparent ops init init [] [] rs); try apply reached_init; eauto.
  Qed.

  Lemma hwithout_refl ops rs : length ops = length rs -> hwithout ops rs ops rs.
  Proof. revert rs; induction ops as [|o ops IH]; intros [|r rs] E; try discriminate; constructor; apply IH; cbn in E; lia. Qed.

  Lemma hexec_length ops : forall s s' rs, hexec upd prd s ops = Ok (s', rs) -> length ops = length rs.
  Proof.
    induction ops as [|o ops IH]; intros s s' rs E; cbn [hexec] in E; [injection E as _ <-; reflexivity|].
    destruct (do_hop upd prd s o) as [[s1 r]|]; cbn [bind] in E; [|discriminate].
    destruct (hexec upd prd s1 ops) as [[s2 rs2]|] eqn:E2; cbn [bind] in E; [|discriminate].
    injection E as _ <-. cbn [length]. f_equal. exact (IH _ _ _ E2).
  Qed.

  Lemma reached_same s1 s2 h evs ops : reached s1 h evs -> reached s2 h evs -> Forall (ok_hop A okw) ops ->
    shown (hexec upd prd s1 ops) = shown (hexec upd prd s2 ops).
  Proof.
    intros H1 H2 Hok. destruct (reached_ops ops s1 h evs H1 Hok) as (s' & rs & E & _).
    destruct (own_history_transparent ops s1 s2 h evs rs ops rs H1 H2 Hok (ex_intro _ _ E)
                (hwithout_refl _ _ (hexec_length _ _ _ _ E))) as (s'' & E'').
    rewrite E, E''. reflexivity.
  Qed.

  Lemma own_update_seq ops seq w : Forall (ok_hop A okw) ops -> incl seq A -> okw w ->
    exists s rs0 s' rs, hexec upd prd init ops = Ok (s, rs0) /\
      qobj_update_seq Q fresh dflt s seq w = Ok (s', Rsum rs) /\
      hexec upd prd s (map (fun a => HUpdate a w) seq) = Ok (s', rs).
  Proof.
    intros Hok Hi Hw. destruct (reached_ops ops _ _ _ reached_init Hok) as (s & rs & E & Hr).
    destruct (update_seq_total seq w Hw s _ _ Hr Hi) as (s' & rs' & E1 & E2). exists s, rs, s', rs'. auto.
  Qed.

  Lemma own_predict_seq ops seq : Forall (ok_hop A okw) ops -> incl seq A ->
    exists s rs0 s' rs, hexec upd prd init ops = Ok (s, rs0) /\
      qobj_log_predict_seq Q fresh dflt s seq = Ok (s', Rsum rs) /\
      shown (ext s (predict_ops (updated ops) seq)) = Ok rs /\
      forall more, Forall (ok_hop A okw) more -> shown (hexec upd prd s' more) = shown (hexec upd prd s more).
  Proof.
    intros Hok Hi. destruct (reached_ops ops _ _ _ reached_init Hok) as (s & rs & E & Hr).
    destruct (predict_seq_ops seq s _ _ Hr Hi) as (s' & r & E1 & Hr' & rs' & E2 & ->). exists s, rs, s', rs'.
    split; [exact E|]. split; [exact E1|]. split; [exact E2|]. intros more Hm. exact (reached_same _ _ _ _ _ Hr' Hr Hm).
  Qed.
End top.
