(** Setting attributes and checking parameters. *)
From Verif Require Import Proofs.DictFacts Proofs.StrFacts Proofs.StructuresRead Proofs.UtilNamesFacts Spec.ChecksSpec.
Open Scope Z_scope.

Lemma mem_get {V} (d : list (pystr * V)) k : gd_mem streq d k = true <-> exists v, gd_get streq d k = Some v.
Proof. unfold gd_mem. destruct (gd_get streq d k); split; [eauto|reflexivity|discriminate|intros [? H]; discriminate H]. Qed.

(** ** The parameters to set *)
Lemma fill_ok obj valid : forall params q, fill_params obj valid params = Ok q ->
  forall k v, gd_get streq q k = Some v <-> due valid params obj k v.
Proof.
  induction valid as [|x valid IH]; intros params q E k v; cbn [fill_params] in E.
  - injection E as <-. unfold due. split; [now left|intros [H|(_ & [] & _)]; exact H].
  - destruct (gd_mem streq params x) eqn:M.
    + rewrite (IH _ _ E k v). apply mem_get in M as [w Hw]. unfold due. split.
      * intros [H|(H1 & H2 & H3)]; [now left|right; repeat split; [exact H1|now right|exact H3]].
      * intros [H|(H1 & [<-|H2] & H3)]; [now left|congruence|right; now repeat split].
    + assert (N : gd_get streq params x = None) by (unfold gd_mem in M; now destruct (gd_get streq params x)).
      destruct (gd_get streq obj x) as [w|] eqn:O; [|discriminate]. rewrite (IH _ _ E k v). unfold due. rewrite (get_set streq streq_spec).
      destruct (streq x k) eqn:Ek.
      * apply streq_spec in Ek. subst k. split.
        -- intros [H|(H & _)]; [injection H as <-; right; repeat split; [exact N|now left|exact O]|discriminate].
        -- intros [H|(_ & _ & H)]; [congruence|left; congruence].
      * split.
        -- intros [H|(H1 & H2 & H3)]; [now left|right; repeat split; [exact H1|now right|exact H3]].
        -- intros [H|(H1 & [<-|H2] & H3)]; [now left|rewrite streq_refl in Ek; discriminate|right; now repeat split].
Qed.
Lemma fill_err obj valid : forall params, (exists e, fill_params obj valid params = Err e) <->
  exists k, In k valid /\ gd_get streq params k = None /\ gd_get streq obj k = None.
Proof.
  induction valid as [|x valid IH]; intros params; cbn [fill_params].
  - split; [intros [e H]; discriminate H|intros (k & [] & _)].
  - destruct (gd_mem streq params x) eqn:M.
    + rewrite IH. apply mem_get in M as [w Hw]. split; intros (k & H1 & H2 & H3); exists k; [repeat split; [now right|exact H2|exact H3]|].
      destruct H1 as [<-|H1]; [congruence|now repeat split].
    + assert (N : gd_get streq params x = None) by (unfold gd_mem in M; now destruct (gd_get streq params x)).
      destruct (gd_get streq obj x) as [w|] eqn:O.
      * rewrite IH. split; intros (k & H1 & H2 & H3); exists k.
        -- rewrite (get_set streq streq_spec) in H2. destruct (streq x k); [discriminate|]. repeat split; [now right|exact H2|exact H3].
        -- destruct H1 as [<-|H1]; [congruence|]. repeat split; [exact H1| |exact H3]. rewrite (get_set streq streq_spec).
           destruct (streq x k) eqn:Ek; [apply streq_spec in Ek; congruence|exact H2].
      * split; [intros _; exists x; repeat split; [now left|exact N|exact O]|intros _; now exists ParameterException].
Qed.
Lemma fill_exn obj valid : forall params e, fill_params obj valid params = Err e -> e = ParameterException.
Proof.
  induction valid as [|x valid IH]; intros params e; cbn [fill_params]; [discriminate|].
  destruct (gd_mem streq params x); [apply IH|]. destruct (gd_get streq obj x); [apply IH|congruence].
Qed.
Lemma fill_nodup obj valid : forall params q, NoDup (map fst params) -> fill_params obj valid params = Ok q -> NoDup (map fst q).
Proof.
  induction valid as [|x valid IH]; intros params q HN E; cbn [fill_params] in E; [congruence|].
  destruct (gd_mem streq params x); [now apply (IH params)|]. destruct (gd_get streq obj x); [|discriminate].
  apply (IH _ q) in E; [exact E|]. now apply (set_nodup streq streq_spec).
Qed.

(** ** Setting them *)
Definition skipped (include_all : bool) (valid : list pystr) (k : pystr) : bool :=
  negb include_all && (negb match valid with [] => false | _ => true end || (match valid with [] => false | _ => true end && negb (existsb (streq k) valid))).
Lemma skipped_spec include_all valid k : skipped include_all valid k = false <-> wanted include_all valid k.
Proof.
  unfold skipped, wanted. destruct include_all; cbn [negb andb]; [split; [now left|reflexivity]|].
  destruct valid as [|x l]; cbn [negb orb andb]; [split; [discriminate|intros [H|[]]; discriminate H]|].
  rewrite negb_false_iff. rewrite existsb_streq. split; [now right|intros [H|H]; [discriminate H|exact H]].
Qed.
Definition must (validate : bool) (valid : list pystr) (k : pystr) : bool :=
  validate && (negb match valid with [] => false | _ => true end || existsb (streq k) valid).
Lemma must_spec validate valid k : must validate valid k = true <-> validate = true /\ (valid = [] \/ In k valid).
Proof.
  unfold must. rewrite andb_true_iff, orb_true_iff, negb_true_iff, existsb_streq.
  destruct valid; split; intros [H1 [H2|H2]]; split; auto; try discriminate.
Qed.
Lemma set_eq include_all validate valid k v rest obj : set_params include_all validate valid ((k, v) :: rest) obj =
  if skipped include_all valid k then set_params include_all validate valid rest obj
  else if must validate valid k && is_none v then (obj, Err ParameterException)
  else set_params include_all validate valid rest (gd_set streq obj k v).
Proof. reflexivity. Qed.
Lemma is_none_spec v : is_none v = true <-> v = VNone.
Proof. destruct v; split; (reflexivity || discriminate). Qed.

Definition refused include_all (validate : bool) valid (params : attrs) : Prop :=
  validate = true /\ exists k, In (k, VNone) params /\ checked include_all valid k.
Lemma set_ok include_all validate valid : forall params obj obj2, NoDup (map fst params) ->
  set_params include_all validate valid params obj = (obj2, Ok tt) ->
  ~ refused include_all validate valid params /\
  forall k, gd_get streq obj2 k = if skipped include_all valid k then gd_get streq obj k
                                  else match gd_get streq params k with Some v => Some v | None => gd_get streq obj k end.
Proof.
  induction params as [|[x v] rest IH]; intros obj obj2 HN E.
  - cbn [set_params] in E. injection E as <-. split; [intros (_ & k & [] & _)|]. intros k. now destruct (skipped include_all valid k).
  - cbn [map fst] in HN. inversion HN as [|? ? N1 N2]; subst. rewrite set_eq in E. destruct (skipped include_all valid x) eqn:S.
    + destruct (IH _ _ N2 E) as [I1 I2]. split.
      * intros (V & k & [H|H] & C); [|now apply I1; split; [exact V|exists k]]. injection H as -> ->.
        destruct C as [C _]. apply skipped_spec in C. congruence.
      * intros k. rewrite I2. destruct (skipped include_all valid k) eqn:Sk; [reflexivity|]. cbn [gd_get].
        destruct (streq x k) eqn:Ek; [apply streq_spec in Ek; congruence|reflexivity].
    + destruct (must validate valid x && is_none v) eqn:M; [discriminate|]. destruct (IH _ _ N2 E) as [I1 I2]. split.
      * intros (V & k & [H|H] & C); [|now apply I1; split; [exact V|exists k]]. injection H as -> ->.
        rewrite (proj2 (must_spec validate valid k)) in M by (split; [exact V|apply C]). discriminate.
      * intros k. rewrite I2. cbn [gd_get]. rewrite (get_set streq streq_spec). destruct (streq x k) eqn:Ek; [|reflexivity].
        apply streq_spec in Ek. subst k. rewrite S.
        assert (G : gd_get streq rest x = None) by (apply (DictFacts.get_none streq streq_spec); exact N1). now rewrite G.
Qed.
Lemma set_err include_all validate valid : forall params obj obj2 e,
  set_params include_all validate valid params obj = (obj2, Err e) -> e = ParameterException /\ refused include_all validate valid params.
Proof.
  induction params as [|[x v] rest IH]; intros obj obj2 e E; [discriminate E|]. rewrite set_eq in E.
  destruct (skipped include_all valid x) eqn:S.
  - destruct (IH _ _ _ E) as (I1 & V & k & I2 & I3). split; [exact I1|]. split; [exact V|]. exists k. split; [now right|exact I3].
  - destruct (must validate valid x && is_none v) eqn:M.
    + injection E as <- <-. split; [reflexivity|]. apply andb_true_iff in M as [M1 M2]. apply is_none_spec in M2. subst v.
      apply must_spec in M1 as [V C]. split; [exact V|]. exists x. split; [now left|]. split; [now apply skipped_spec|exact C].
    + destruct (IH _ _ _ E) as (I1 & V & k & I2 & I3). split; [exact I1|]. split; [exact V|]. exists k. split; [now right|exact I3].
Qed.
Lemma set_between include_all validate valid : forall params obj obj2 r, set_params include_all validate valid params obj = (obj2, r) ->
  forall k, gd_get streq obj2 k = gd_get streq obj k \/ wanted include_all valid k /\ exists v, In (k, v) params /\ gd_get streq obj2 k = Some v.
Proof.
  induction params as [|[x v] rest IH]; intros obj obj2 r E k.
  - cbn [set_params] in E. injection E as <- <-. now left.
  - rewrite set_eq in E. destruct (skipped include_all valid x) eqn:S.
    + destruct (IH _ _ _ E k) as [H|(W & w & H1 & H2)]; [now left|right; split; [exact W|exists w; split; [now right|exact H2]]].
    + destruct (must validate valid x && is_none v); [injection E as <- <-; now left|].
      destruct (IH _ _ _ E k) as [H|(W & w & H1 & H2)]; [|right; split; [exact W|exists w; split; [now right|exact H2]]].
      rewrite (get_set streq streq_spec) in H. destruct (streq x k) eqn:Ek; [|now left]. apply streq_spec in Ek. subst k.
      right. split; [now apply skipped_spec|]. exists v. split; [now left|exact H].
Qed.

(** ** set_attributes *)
Theorem sets include_all validate valid params obj obj2 : NoDup (map fst params) ->
  set_attributes include_all validate valid params obj = (obj2, Ok tt) ->
  forall k, (forall v, gd_get streq params k = Some v -> wanted include_all valid k -> gd_get streq obj2 k = Some v) /\
    (gd_get streq params k = None \/ ~ wanted include_all valid k -> gd_get streq obj2 k = gd_get streq obj k).
Proof.
  intros HN E k. unfold set_attributes in E. destruct (fill_params obj valid params) as [q|e] eqn:F; [|discriminate E].
  destruct (set_ok _ _ _ _ _ _ (fill_nodup _ _ _ _ HN F) E) as [_ H]. pose proof (fill_ok _ _ _ _ F k) as D. rewrite H. split.
  - intros v Hv W. apply skipped_spec in W. rewrite W. rewrite (proj2 (D v) (or_introl Hv)). reflexivity.
  - intros [N|N].
    + destruct (skipped include_all valid k) eqn:S; [reflexivity|]. destruct (gd_get streq q k) as [w|] eqn:Eq; [|reflexivity].
      destruct (proj1 (D w) eq_refl) as [X|(_ & _ & X)]; congruence.
    + destruct (skipped include_all valid k) eqn:S; [reflexivity|]. apply skipped_spec in S. contradiction.
Qed.
Theorem succeeds include_all validate valid params obj : NoDup (map fst params) ->
  ((exists obj2, set_attributes include_all validate valid params obj = (obj2, Ok tt)) <->
   (forall k, In k valid -> exists v, due valid params obj k v) /\
   (validate = true -> forall k, checked include_all valid k -> ~ due valid params obj k VNone)).
Proof.
  intros HN. unfold set_attributes.
  assert (HF : (exists e, fill_params obj valid params = Err e) <-> ~ (forall k, In k valid -> exists v, due valid params obj k v)).
  { rewrite fill_err. split.
    - intros (k & H1 & H2 & H3) H. destruct (H k H1) as (v & [H4|(_ & _ & H4)]); congruence.
    - intros H. destruct (existsb (fun k => negb (gd_mem streq params k) && negb (gd_mem streq obj k)) valid) eqn:X.
      + apply existsb_exists in X as (k & K1 & K2). apply andb_true_iff in K2 as [K2 K3]. exists k. unfold gd_mem in K2, K3.
        destruct (gd_get streq params k); [discriminate|]. destruct (gd_get streq obj k); [discriminate|]. now repeat split.
      + exfalso. apply H. intros k Hk.
        assert (Y : negb (gd_mem streq params k) && negb (gd_mem streq obj k) = false).
        { destruct (negb (gd_mem streq params k) && negb (gd_mem streq obj k)) eqn:Y; [|reflexivity].
          rewrite <- X. symmetry. apply existsb_exists. now exists k. }
        unfold gd_mem in Y. unfold due. destruct (gd_get streq params k) as [v|]; [exists v; now left|].
        destruct (gd_get streq obj k) as [v|]; [exists v; right; now repeat split|discriminate]. }
  destruct (fill_params obj valid params) as [q|e] eqn:F.
  - pose proof (fill_nodup _ _ _ _ HN F) as NQ. pose proof (fill_ok _ _ _ _ F) as D.
    assert (HA : forall k, In k valid -> exists v, due valid params obj k v).
    { intros k Hk. destruct (gd_get streq q k) as [v|] eqn:Eq; [exists v; now apply D|]. exfalso.
      destruct (gd_get streq params k) as [v|] eqn:Ep; [rewrite (proj2 (D k v)) in Eq by (now left); discriminate|].
      destruct (gd_get streq obj k) as [v|] eqn:Eo; [rewrite (proj2 (D k v)) in Eq by (right; now repeat split); discriminate|].
      assert (X : exists e, fill_params obj valid params = Err e) by (apply fill_err; exists k; now repeat split).
      destruct X as [e X]. congruence. }
    split.
    + intros [obj2 E]. split; [exact HA|]. intros V k C Hn. destruct (set_ok _ _ _ _ _ _ NQ E) as [N _]. apply N. split; [exact V|].
      exists k. split; [|exact C]. apply (get_in streq streq_spec). now apply D.
    + intros [_ H]. destruct (set_params include_all validate valid q obj) as [obj2 [[]|e]] eqn:E; [now exists obj2|]. exfalso.
      destruct (set_err _ _ _ _ _ _ _ E) as (_ & V & k & H1 & H2). apply (H V k H2). apply D. now apply (in_get streq streq_spec).
  - split; [intros [? H]; discriminate H|]. intros [H _]. exfalso. apply HF; [now exists e|exact H].
Qed.
Theorem fails include_all validate valid params obj obj2 e :
  set_attributes include_all validate valid params obj = (obj2, Err e) -> e = ParameterException /\
  forall k, gd_get streq obj2 k = gd_get streq obj k \/
    wanted include_all valid k /\ exists v, gd_get streq obj2 k = Some v /\ In (k, v) params.
Proof.
  unfold set_attributes. destruct (fill_params obj valid params) as [q|e'] eqn:F; intros E.
  - split; [now apply (set_err _ _ _ _ _ _ _ E)|]. intros k.
    destruct (set_between _ _ _ _ _ _ _ E k) as [H|(W & v & H1 & H2)]; [now left|].
    assert (X : In (k, v) params \/ gd_get streq obj k = Some v).
    { clear -F H1. revert params F H1. induction valid as [|x l IH]; intros params F H1; cbn [fill_params] in F; [injection F as <-; now left|].
      destruct (gd_mem streq params x); [now apply IH|]. destruct (gd_get streq obj x) as [w|] eqn:O; [|discriminate].
      destruct (IH _ F H1) as [X|X]; [|now right]. clear -X O.
      induction params as [|[y z] params IHp]; cbn [gd_set] in X.
      - destruct X as [X|[]]. injection X as <- <-. now right.
      - destruct (streq y x) eqn:Ey.
        + destruct X as [X|X]; [injection X as <- <-; apply streq_spec in Ey; subst; now right|left; now right].
        + destruct X as [X|X]; [left; now left|]. destruct (IHp X) as [Y|Y]; [left; now right|now right]. }
    destruct X as [X|X]; [right; split; [exact W|exists v; now split]|left; congruence].
  - injection E as <- <-. split; [now apply fill_exn in F|]. intros k. now left.
Qed.
Theorem missing_unchanged include_all validate valid params obj k : In k valid -> gd_get streq params k = None -> gd_get streq obj k = None ->
  set_attributes include_all validate valid params obj = (obj, Err ParameterException).
Proof.
  intros H1 H2 H3. unfold set_attributes. destruct (proj2 (fill_err obj valid params)) as [e E]; [exists k; now repeat split|].
  rewrite E. now rewrite (fill_exn _ _ _ _ E).
Qed.
(** some attributes are set before the exception *)
Lemma half_set : exists params obj obj2, set_attributes true true [] params obj = (obj2, Err ParameterException) /\
  gd_get streq obj (lit "a") = Some (VInt 5) /\ gd_get streq obj2 (lit "a") = Some (VInt 6).
Proof.
  exists [(lit "a", VInt 6); (lit "b", VNone)], [(lit "a", VInt 5); (lit "b", VInt 5)], [(lit "a", VInt 6); (lit "b", VInt 5)].
  repeat apply conj; vm_compute; reflexivity.
Qed.

(** ** validate_params *)
Section validate.
  Variable veq : pval -> pval -> bool.
  Lemma given_names g k : given_in g k = true <-> In k (names_of g).
  Proof.
    destruct g as [l|d]; cbn [given_in names_of]; [apply existsb_streq|]. rewrite mem_get. split.
    - intros [v H]. apply (get_in streq streq_spec) in H. apply in_map_iff. now exists (k, v).
    - intros H. destruct (gd_get streq d k) as [v|] eqn:E; [now exists v|]. exfalso. now apply (DictFacts.get_none streq streq_spec) in E.
  Qed.
  Theorem names_only params required : validate_params veq params required false = true <-> incl (names_of required) (names_of params).
  Proof.
    unfold validate_params. rewrite forallb_forall. cbn [negb orb].
    split; intros H k Hk; specialize (H k Hk); [apply andb_true_iff in H as [H _]; now apply given_names|rewrite andb_true_r; now apply given_names].
  Qed.
  Theorem values_set d l : validate_params veq (GDict d) (GList l) true = true <-> forall k, In k l -> exists v, gd_get streq d k = Some v /\ v <> VNone.
  Proof.
    unfold validate_params. rewrite forallb_forall. cbn [negb orb names_of given_in value_ok]. split; intros H k Hk; specialize (H k Hk).
    - apply andb_true_iff in H as [H1 H2]. apply mem_get in H1 as [v Hv]. exists v. split; [exact Hv|]. unfold value_of in H2. rewrite Hv in H2.
      intros ->. discriminate.
    - destruct H as (v & Hv & Hn). rewrite (proj2 (mem_get d k)) by eauto. unfold value_of. rewrite Hv. cbn [andb].
      destruct (is_none v) eqn:E; [apply is_none_spec in E; contradiction|reflexivity].
  Qed.
  Theorem list_has_no_values l required : validate_params veq (GList l) required true = true <-> names_of required = [].
  Proof.
    unfold validate_params. destruct (names_of required) as [|k r]; cbn [forallb]; [split; reflexivity|].
    cbn [value_ok negb orb]. rewrite andb_false_r. split; discriminate.
  Qed.
  Hypothesis veq_spec : forall x y, veq x y = true <-> x = y.
  Lemma in_admits r v : match value_in veq v r with Some b => b | None => veq v r end = true <-> admits r v.
  Proof.
    assert (HE : (forall l, r <> VList l) -> (forall s, r <> VStr s) -> (forall d, r <> VDict d) -> (veq v r = true <-> admits r v)).
    { intros H1 H2 H3. rewrite veq_spec. split; [intros ->; now apply ASame|]. intros H. inversion H; subst; try reflexivity;
        exfalso; (eapply H1; reflexivity) || (eapply H2; reflexivity) || (eapply H3; reflexivity). }
    destruct r as [|b|n|s|s|l|d]; cbn [value_in]; try (apply HE; discriminate).
    - destruct v as [|b|n|t|t|l|d]; try (rewrite veq_spec; split; [discriminate|intros H; inversion H; subst; exfalso; eauto; congruence]).
      rewrite contains_spec. split.
      + intros (a & b & ->). constructor.
      + intros H. inversion H as [|a b t' E1 E2| | |? ? HS ?]; subst; [eauto|]. exfalso. now apply (HS t).
    - rewrite existsb_exists. split.
      + intros (x & Hx & E). apply veq_spec in E. subst x. now constructor.
      + intros H. inversion H as [? ? HI| | | |? HL ? ?]; subst; [exists v; split; [exact HI|now apply veq_spec]|]. exfalso. now apply (HL l).
    - destruct v as [|b|n|t|t|l|d2];
        try (split; [discriminate|intros H; inversion H; subst; exfalso; eauto; congruence]).
      + rewrite mem_get. split.
        * intros [x Hx]. apply (get_in streq streq_spec) in Hx. now apply AKey with x.
        * intros H. inversion H as [| |? ? x HI| |]; subst.
          destruct (gd_get streq d t) as [y|] eqn:Ey; [now exists y|]. exfalso. apply (DictFacts.get_none streq streq_spec) in Ey. apply Ey.
          apply in_map_iff. now exists (t, x).
      + rewrite veq_spec. split; [discriminate|]. intros H. inversion H.
      + rewrite veq_spec. split; [intros [= ->]; constructor|]. intros H. inversion H; subst; [reflexivity|]. exfalso. match goal with N : forall d, _ <> VDict d |- _ => exact (N _ eq_refl) end.
  Qed.
  Theorem values_match d r : NoDup (map fst r) ->
    (validate_params veq (GDict d) (GDict r) true = true <->
     forall k x, In (k, x) r -> exists v, gd_get streq d k = Some v /\ admits x v).
  Proof.
    intros HN. unfold validate_params. rewrite forallb_forall. cbn [negb orb names_of given_in value_ok]. split.
    - intros H k x Hx. specialize (H k (in_map fst _ _ Hx)). apply andb_true_iff in H as [H1 H2]. apply mem_get in H1 as [v Hv]. exists v.
      split; [exact Hv|]. unfold value_of in H2. rewrite Hv in H2. rewrite (in_get streq streq_spec _ _ _ HN Hx) in H2. now apply in_admits.
    - intros H k Hk. apply in_map_iff in Hk as ([k' x] & <- & Hx). cbn [fst]. destruct (H k' x Hx) as (v & Hv & Ha).
      rewrite (proj2 (mem_get d k')) by eauto. cbn [andb]. unfold value_of. rewrite Hv, (in_get streq streq_spec _ _ _ HN Hx). now apply in_admits.
  Qed.
  (** any part of a required string will do, also the empty one *)
  Theorem string_parts k a t b : validate_params veq (GDict [(k, VStr t)]) (GDict [(k, VStr (a ++ t ++ b))]) true = true.
  Proof.
    apply values_match; [constructor; [intros []|constructor]|]. intros k' x [H|[]]. injection H as <- <-.
    exists (VStr t). cbn [gd_get]. rewrite streq_refl. split; [reflexivity|constructor].
  Qed.
  (** a list is not its own value *)
  Fixpoint depth (v : pval) : nat := match v with VList l => S (list_max (map depth l)) | _ => O end.
  Theorem list_refused k l : validate_params veq (GDict [(k, VList l)]) (GDict [(k, VList l)]) true = false.
  Proof.
    destruct (validate_params veq (GDict [(k, VList l)]) (GDict [(k, VList l)]) true) eqn:E; [|reflexivity]. exfalso.
    assert (HN : NoDup (map fst [(k, VList l)])) by (constructor; [intros []|constructor]).
    apply (proj1 (values_match [(k, VList l)] [(k, VList l)] HN)) with (k := k) (x := VList l) in E; [|now left]. destruct E as (v & Hv & Ha).
    cbn [gd_get] in Hv. rewrite streq_refl in Hv. injection Hv as <-. inversion Ha as [? ? HI| | | |? HL ? ?]; subst; [|now apply (HL l)].
    assert (HD : (depth (VList l) <= list_max (map depth l))%nat).
    { assert (HM : Forall (fun n => (n <= list_max (map depth l))%nat) (map depth l)) by now apply list_max_le.
      rewrite Forall_forall in HM. apply HM. now apply in_map. }
    cbn [depth] in HD. lia.
  Qed.
End validate.

(** an equality that tells all values apart *)
Fixpoint pval_eqb (v w : pval) : bool :=
  match v, w with
  | VNone, VNone => true
  | VBool a, VBool b => Bool.eqb a b
  | VInt a, VInt b => a =? b
  | VStr a, VStr b | VOther a, VOther b => streq a b
  | VList a, VList b => (fix go a b := match a, b with [], [] => true | x :: a, y :: b => pval_eqb x y && go a b | _, _ => false end) a b
  | VDict a, VDict b => (fix go (a b : list (pystr * pval)) := match a, b with
                         | [], [] => true
                         | (k, x) :: a, (l, y) :: b => streq k l && pval_eqb x y && go a b
                         | _, _ => false end) a b
  | _, _ => false
  end.
Lemma pval_eqb_spec : forall v w, pval_eqb v w = true <-> v = w.
Proof.
  fix IH 1. intros [|a|a|a|a|a|a] [|b|b|b|b|b|b]; cbn [pval_eqb]; try (split; (reflexivity || discriminate)).
  - rewrite Bool.eqb_true_iff. split; congruence.
  - rewrite Z.eqb_eq. split; congruence.
  - rewrite streq_spec. split; congruence.
  - rewrite streq_spec. split; congruence.
  - transitivity (a = b); [|split; congruence]. revert b. induction a as [|x a IHa]; intros [|y b]; try (split; (reflexivity || discriminate)).
    rewrite andb_true_iff, IH, IHa. split; [intros [-> ->]; reflexivity|intros [= -> ->]; now split].
  - transitivity (a = b); [|split; congruence]. revert b. induction a as [|[k x] a IHa]; intros [|[l y] b]; try (split; (reflexivity || discriminate)).
    rewrite !andb_true_iff, IH, IHa, streq_spec. split; [intros [[-> ->] ->]; reflexivity|intros [= -> -> ->]; now repeat split].
Qed.
