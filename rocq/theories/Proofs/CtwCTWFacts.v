(** ctw.py's CTW computes what model.py's CTW computes. *)
From Coq Require Import Lra.
From Verif Require Import Model.CtwCTW Spec.CtwSpec Spec.CTWSpec.
From Verif Require Import Proofs.RealFacts Proofs.PyFacts Proofs.ProbFacts Proofs.CTWFacts Proofs.CTWTop Proofs.CTWProps Proofs.CtwPTWFacts.
Open Scope R_scope.

(** Two results that agree: related values, or the same exception. *)
Definition same_result {A B} (P : A -> B -> Prop) (x : result A) (y : result B) : Prop :=
  match x, y with
  | Ok a, Ok b => P a b
  | Err e, Err e' => e = e'
  | _, _ => False
  end.

Section facts.
  Context {S : Type} (Q : probseq S).
  Notation M := (without_history (q_model Q)).
  Hypothesis Hlaw : forall s a h w s' l, m_update (q_model Q) s a h w = Ok (s', l) -> q_lp Q s' = q_lp Q s + l.
  Variable fresh : S.
  Hypothesis Hf0 : q_lp Q fresh = 0.

  Inductive csim : nat -> qctw S -> cnode S -> Prop :=
  | csim_node d lp base ch cch clp :
      clp = Rsum (map qc_lp (dict_values ch)) ->
      (d = 0%nat -> lp = q_lp Q base) ->
      Forall2 (fun p p' => fst p = fst p' /\ csim (pred d) (snd p) (snd p')) ch cch ->
      csim d (QCTW (Z.of_nat d) lp base ch) (CNode base (q_lp Q base) clp lp cch).

  Lemma csim_lp d q c : csim d q c -> c_lp c = qc_lp q.
  Proof. intros H; destruct H; reflexivity. Qed.

  Lemma csim_new d : csim d (new_qctw fresh (Z.of_nat d)) (new_node fresh).
  Proof. unfold new_qctw, new_node. rewrite <- Hf0 at 2. constructor; [reflexivity|now intros _; rewrite Hf0|constructor]. Qed.

  Notation related d := (Forall2 (fun p p' => fst p = fst p' /\ csim d (snd p) (snd p'))).

  Lemma get_related d (ch : list (Z * qctw S)) (cch : list (Z * cnode S)) k : related d ch cch ->
    match dict_get ch k, dict_get cch k with
    | Some q, Some c => csim d q c
    | None, None => True
    | _, _ => False
    end.
  Proof.
    induction 1 as [|[k1 q] [k2 c] ch cch [Hk Hc] Hr IH]; cbn [dict_get]; [exact I|].
    cbn [fst snd] in *. subst k2. destruct (k1 =? k)%Z; [exact Hc|exact IH].
  Qed.

  Lemma set_related d (ch : list (Z * qctw S)) (cch : list (Z * cnode S)) k q c : related d ch cch -> csim d q c ->
    related d (dict_set ch k q) (dict_set cch k c).
  Proof.
    intros H Hc. induction H as [|[k1 q1] [k2 c1] ch cch [Hk Hc1] Hr IH]; cbn [dict_set].
    - constructor; [split; [reflexivity|exact Hc]|constructor].
    - cbn [fst snd] in *. subst k2. destruct (k1 =? k)%Z; constructor; try assumption; split; auto.
  Qed.

  Lemma set_sum (ch : list (Z * qctw S)) k q :
    Rsum (map qc_lp (dict_values (dict_set ch k q))) =
    Rsum (map qc_lp (dict_values ch)) + (qc_lp q - match dict_get ch k with Some o => qc_lp o | None => 0 end).
  Proof.
    induction ch as [|[k1 q1] ch IH]; cbn [dict_set dict_get].
    - unfold dict_values. cbn [map snd]. rewrite Rsum_cons, Rsum_nil. lra.
    - destruct (k1 =? k)%Z; unfold dict_values in *; cbn [map snd]; rewrite !Rsum_cons; [lra|]. rewrite IH. lra.
  Qed.

  Lemma child_related d (ch : list (Z * qctw S)) (cch : list (Z * cnode S)) k : related d ch cch ->
    exists c made, (match dict_get cch k with Some x => (x, 0%nat) | None => (new_node fresh, 1%nat) end) = (c, made) /\
      csim d (qc_child fresh (Z.of_nat (Datatypes.S d)) ch k) c /\
      qc_lp (qc_child fresh (Z.of_nat (Datatypes.S d)) ch k) = match dict_get ch k with Some o => qc_lp o | None => 0 end.
  Proof.
    intros H. pose proof (get_related d ch cch k H) as G. unfold qc_child.
    destruct (dict_get ch k) as [q|], (dict_get cch k) as [c|]; try contradiction.
    - exists c, 0%nat. auto.
    - exists (new_node fresh), 1%nat. split; [reflexivity|].
      replace (Z.of_nat (Datatypes.S d) - 1)%Z with (Z.of_nat d) by lia. split; [apply csim_new|reflexivity].
  Qed.

  Lemma update_sim : forall c d q n a h w, length c = d -> csim d q n ->
    same_result (fun x q' => let '(n', r, _) := x in csim d q' n' /\ r = qc_lp q' - qc_lp q)
      (node_update M fresh false c n a h w) (qc_update Q fresh c q a w).
  Proof.
    induction c as [|k c IH]; intros d q n a h w Hd Hs; destruct Hs as [d lp base ch cch clp Hc Hl Hr];
      cbn [length] in Hd; subst d; cbn [node_update qc_update]; cbn [without_history m_update];
      destruct (m_update (q_model Q) base a [] w) as [[base' l]|e] eqn:Eb; cbn [bind]; try reflexivity;
      pose proof (Hlaw _ _ _ _ _ _ Eb) as El.
    - cbn [same_result]. rewrite El. split; [|cbn [qc_lp]; reflexivity].
      rewrite <- El. constructor; [exact Hc|reflexivity|exact Hr].
    - replace (Z.of_nat (Datatypes.S (length c)) <=? 0)%Z with false by (symmetry; apply Z.leb_gt; lia).
      cbn [child_key bind]. cbn [pred] in Hr.
      destruct (child_related _ ch cch k Hr) as (ck & made & Ec & Hck & Hlk). rewrite Ec.
      specialize (IH _ _ _ a h w eq_refl Hck).
      destruct (node_update M fresh false c ck a h w) as [[[n' r] more]|e]; cbn [bind];
        destruct (qc_update Q fresh c _ a w) as [q'|e']; cbn [same_result] in IH; try contradiction; cbn [bind].
      + rewrite lse_pair. cbn [bind same_result]. destruct IH as (Hs' & ->).
        rewrite set_sum, El, Hlk, Hc.
        split; [|reflexivity].
        rewrite <- El. constructor.
        * rewrite set_sum. reflexivity.
        * discriminate.
        * cbn [pred]. apply set_related; assumption.
      + exact IH.
  Qed.

  Lemma predict_sim : forall c d q n a h, length c = d -> csim d q n ->
    same_result (fun x y => let '(n', r, _) := x in csim d (fst y) n' /\ r = snd y /\ qc_lp (fst y) = qc_lp q)
      (node_log_predict M fresh false c n a h) (qc_log_predict Q fresh c q a).
  Proof.
    induction c as [|k c IH]; intros d q n a h Hd Hs; destruct Hs as [d lp base ch cch clp Hc Hl Hr];
      cbn [length] in Hd; subst d; cbn [node_log_predict qc_log_predict]; cbn [without_history m_logp];
      destruct (m_logp (q_model Q) base a []) as [l|e] eqn:Eb; cbn [bind]; try reflexivity.
    - cbn [same_result fst snd]. split; [constructor; assumption|]. split; [|reflexivity]. rewrite (Hl eq_refl). cbn [snd]. lra.
    - replace (Z.of_nat (Datatypes.S (length c)) <=? 0)%Z with false by (symmetry; apply Z.leb_gt; lia).
      cbn [child_key bind]. cbn [pred] in Hr.
      destruct (child_related _ ch cch k Hr) as (ck & made & Ec & Hck & Hlk). rewrite Ec.
      specialize (IH _ _ _ a h eq_refl Hck).
      destruct (node_log_predict M fresh false c ck a h) as [[[n' r] more]|e]; cbn [bind];
        destruct (qc_log_predict Q fresh c _ a) as [[q' r']|e']; cbn [same_result] in IH; try contradiction; cbn [bind].
      + rewrite lse_pair. cbn [bind same_result]. cbn [fst snd] in *. destruct IH as (Hs' & -> & Hlp).
        rewrite Hc. split; [|split; reflexivity].
        constructor.
        * rewrite set_sum, Hlp, Hlk. lra.
        * discriminate.
        * cbn [pred]. apply set_related; assumption.
      + exact IH.
  Qed.

  (** Whole objects, for any context function of length [D]. *)
  Variable D : nat.
  Variable mkctx : list Z -> list Z.
  Hypothesis Hlen : forall h, length (mkctx h) = D.

  Definition osim (s : qobj (S := S)) (c : ctw (S := S)) : Prop :=
    csim D (qo_root s) (ctw_tree c) /\ qo_update_history s = true.

  Lemma osim_init : osim (qobj_init fresh (Z.of_nat D)) (ctw_init fresh (Z.of_nat D)).
  Proof. split; [apply csim_new|reflexivity]. Qed.

  Lemma obj_update_sim s c a w : csim D (qo_root s) (ctw_tree c) ->
    same_result (fun x y => csim D (qo_root (fst y)) (ctw_tree (fst x)) /\ snd x = snd y /\
        qo_update_history (fst y) = qo_update_history s /\ ctw_depth (fst x) = ctw_depth c /\
        snd y = qc_lp (qo_root (fst y)) - qc_lp (qo_root s) /\
        qo_history (fst y) = if qo_update_history s then qo_history s ++ [a] else qo_history s)
      (ctw_update_with M fresh false mkctx c a (qo_history s) w) (qobj_update Q fresh mkctx s a w).
  Proof.
    intros Hs. unfold ctw_update_with, qobj_update.
    pose proof (update_sim (rev (mkctx (qo_history s))) D (qo_root s) (ctw_tree c) a (qo_history s) w) as G.
    rewrite rev_length, Hlen in G. specialize (G eq_refl Hs).
    destruct (node_update M fresh false _ _ _ _ _) as [[[n r] made]|e]; cbn [bind];
      destruct (qc_update Q fresh _ _ _ _) as [q'|e']; cbn [same_result] in G; try contradiction; cbn [bind].
    - cbn [same_result fst snd qo_root ctw_tree qo_update_history ctw_depth qo_history]. destruct G as (G1 & ->). auto 10.
    - exact G.
  Qed.

  Lemma obj_predict_sim s c a : csim D (qo_root s) (ctw_tree c) ->
    same_result (fun x y => csim D (qo_root (fst y)) (ctw_tree (fst x)) /\ snd x = snd y /\
        qo_update_history (fst y) = qo_update_history s /\ ctw_depth (fst x) = ctw_depth c /\
        qc_lp (qo_root (fst y)) = qc_lp (qo_root s) /\
        qo_history (fst y) = qo_history s)
      (ctw_log_predict_with M fresh false mkctx c a (qo_history s)) (qobj_log_predict Q fresh mkctx s a).
  Proof.
    intros Hs. unfold ctw_log_predict_with, qobj_log_predict.
    pose proof (predict_sim (rev (mkctx (qo_history s))) D (qo_root s) (ctw_tree c) a (qo_history s)) as G.
    rewrite rev_length, Hlen in G. specialize (G eq_refl Hs).
    destruct (node_log_predict M fresh false _ _ _ _) as [[[n r] made]|e]; cbn [bind];
      destruct (qc_log_predict Q fresh _ _ _) as [[q' r']|e']; cbn [same_result] in G; try contradiction; cbn [bind].
    - cbn [same_result fst snd qo_root ctw_tree qo_update_history ctw_depth qo_history] in *. destruct G as (G1 & -> & G2). auto 10.
    - exact G.
  Qed.

  Lemma exec_sim ops : forall s c, osim s c ->
    same_result (fun x y => osim (fst y) (fst x) /\ snd x = snd y /\ qo_history (fst y) = qo_history s ++ updated ops)
      (exec (ctw_update_with M fresh false mkctx) (ctw_log_predict_with M fresh false mkctx) c (with_history (qo_history s) ops))
      (hexec (qobj_update Q fresh mkctx) (qobj_log_predict Q fresh mkctx) s ops).
  Proof.
    induction ops as [|o ops IH]; intros s c [Hs Hu].
    - cbn. rewrite app_nil_r. repeat split; assumption.
    - destruct o as [a w|a]; cbn [with_history exec hexec do_op do_hop].
      + pose proof (obj_update_sim s c a w Hs) as G.
        destruct (ctw_update_with M fresh false mkctx c a _ w) as [[c1 r]|e]; cbn [bind];
          destruct (qobj_update Q fresh mkctx s a w) as [[s1 r']|e']; cbn [same_result] in G; try contradiction; cbn [bind]; [|exact G].
        cbn [fst snd] in G. destruct G as (G1 & -> & G3 & _ & _ & G4). rewrite Hu in G4.
        specialize (IH s1 c1 (conj G1 (eq_trans G3 Hu))). rewrite G4 in IH.
        destruct (exec _ _ c1 _) as [[c2 rs]|e]; cbn [bind];
          destruct (hexec _ _ s1 ops) as [[s2 rs']|e']; cbn [same_result] in IH; try contradiction; cbn [bind]; [|exact IH].
        cbn [fst snd same_result] in *. destruct IH as (I1 & -> & I3). split; [exact I1|]. split; [reflexivity|].
        rewrite I3. cbn [updated flat_map]. rewrite <- app_assoc. reflexivity.
      + pose proof (obj_predict_sim s c a Hs) as G.
        destruct (ctw_log_predict_with M fresh false mkctx c a _) as [[c1 r]|e]; cbn [bind];
          destruct (qobj_log_predict Q fresh mkctx s a) as [[s1 r']|e']; cbn [same_result] in G; try contradiction; cbn [bind]; [|exact G].
        cbn [fst snd] in G. destruct G as (G1 & -> & G3 & _ & _ & G4).
        specialize (IH s1 c1 (conj G1 (eq_trans G3 Hu))). rewrite G4 in IH.
        destruct (exec _ _ c1 _) as [[c2 rs]|e]; cbn [bind];
          destruct (hexec _ _ s1 ops) as [[s2 rs']|e']; cbn [same_result] in IH; try contradiction; cbn [bind]; [|exact IH].
        cbn [fst snd same_result] in *. destruct IH as (I1 & -> & I3). split; [exact I1|]. split; [reflexivity|].
        rewrite I3. reflexivity.
  Qed.
End facts.
