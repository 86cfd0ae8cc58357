(** Records of Structures and their selection. *)
From Verif Require Import Proofs.DictFacts Proofs.PyFacts Proofs.ParamsFacts Proofs.StrFacts Proofs.StructuresFacts Proofs.StructuresRead Proofs.StructuresTop Proofs.StructuresNeg Spec.RecordsSpec.
Open Scope Z_scope.

Lemma attribute_has inst n v : attribute inst n = Ok v <-> has inst n v.
Proof.
  unfold attribute, has. destruct (gd_get streq inst n) as [[w|]|]; split; intros H.
  - injection H as ->. now left.
  - destruct H as [H|[H _]]; congruence.
  - injection H as <-. now right.
  - destruct H as [H|[_ ->]]; [discriminate|reflexivity].
  - discriminate.
  - destruct H as [H|[H _]]; discriminate.
Qed.
Lemma attribute_lacks inst n : lacks inst n <-> attribute inst n = Err AttributeError.
Proof. unfold attribute, lacks. destruct (gd_get streq inst n) as [[w|]|]; split; congruence. Qed.
Lemma attribute_cases inst n : (exists v, attribute inst n = Ok v) \/ attribute inst n = Err AttributeError.
Proof. unfold attribute. destruct (gd_get streq inst n) as [[w|]|]; eauto. Qed.

(** ** Selection *)
Lemma listify_given x l : given x l -> listify x = l.
Proof. intros [->|[-> H]]; [reflexivity|]. now destruct x. Qed.
Lemma given_ex x : match x with VNone | VDict _ => False | _ => True end -> exists l, given x l.
Proof. destruct x; intros H; try contradiction; try (eexists; right; split; [reflexivity|exact I]). eexists. now left. Qed.

Lemma parameter_text base k v t : (forall f g, In f base -> In g base -> f_name f = f_name g -> f = g) ->
  stringify (get_parameter base k) v false = Ok t <-> shown_as base k v t.
Proof.
  intros HU. unfold stringify, get_parameter, shown_as.
  destruct (find (fun f => streq (f_name f) k) base) as [f|] eqn:E.
  - apply find_some in E as [F1 F2]. apply streq_spec in F2. split.
    + intros H. destruct (field_text v) as [u|] eqn:Eu; cbn [bind] in H; [|discriminate]. apply field_text_iff in Eu.
      exists u. split; [exact Eu|]. destruct (f_keyword f) eqn:Ek; cbn [negb andb] in H; injection H as <-.
      * right. split; [|now rewrite F2]. intros g Hg Eg. rewrite (HU g f Hg F1) by congruence. exact Ek.
      * left. split; [|reflexivity]. now exists f.
    + intros (u & Eu & H). apply field_text_iff in Eu. rewrite Eu. cbn [bind]. destruct H as [[(g & G1 & G2 & G3) ->]|[H ->]].
      * rewrite (HU f g F1 G1) by congruence. now rewrite G3.
      * rewrite (H f F1 F2). cbn [negb andb]. now rewrite F2.
  - cbn [f_keyword f_name negb andb]. split.
    + intros H. destruct (field_text v) as [u|] eqn:Eu; cbn [bind] in H; [|discriminate]. apply field_text_iff in Eu.
      exists u. split; [exact Eu|]. injection H as <-. right. split; [|reflexivity]. intros g Hg Eg. exfalso.
      apply (find_none _ _ E) in Hg. rewrite Eg, streq_refl in Hg. discriminate.
    + intros (u & Eu & H). apply field_text_iff in Eu. rewrite Eu. cbn [bind]. destruct H as [[(g & G1 & G2 & G3) ->]|[H ->]]; [|reflexivity].
      exfalso. apply (find_none _ _ E) in G1. rewrite G2, streq_refl in G1. discriminate.
Qed.

Section select.
  Variable peq : pval -> pval -> bool.
  Variable base : list field.
  Variable inst : attrs.
  Hypothesis HP : compares peq.
  Hypothesis HU : forall f g, In f base -> In g base -> f_name f = f_name g -> f = g.

  Definition answerable (asked : list (pystr * pval)) : Prop := forall k x, In (k, x) asked ->
    (exists l, given x l) /\ forall v, has inst k v -> exists t, shown_as base k v t.

  Lemma among_text t x l : given x l -> among peq (VStr t) x = true <-> In (VStr t) l.
  Proof.
    intros G. unfold among. rewrite (listify_given _ _ G), existsb_exists. split.
    - intros (w & H1 & H2). apply (proj2 HP) in H2. now subst w.
    - intros H. exists (VStr t). split; [exact H|]. apply (proj1 HP).
  Qed.
  Lemma among_value v x l : given x l -> among peq v x = true <-> exists w, In w l /\ peq v w = true.
  Proof. intros G. unfold among. now rewrite (listify_given _ _ G), existsb_exists. Qed.

  Lemma shown_one k v t t' : shown_as base k v t -> shown_as base k v t' -> t = t'.
  Proof. intros H H'. apply (parameter_text _ _ _ _ HU) in H, H'. congruence. Qed.
  Lemma has_one k v v' : has inst k v -> has inst k v' -> v = v'.
  Proof. intros H H'. apply attribute_has in H, H'. congruence. Qed.

  Lemma asserted_ok asked : answerable asked -> exists b, asserted peq base inst asked = Ok b /\
    (b = true <-> forall k x l, In (k, x) asked -> given x l -> accepted peq base inst k l).
  Proof.
    induction asked as [|[k x] rest IH]; intros HA.
    { exists true. split; [reflexivity|]. split; [intros _ k x l []|reflexivity]. }
    destruct (IH (fun k x H => HA k x (or_intror H))) as (b & B1 & B2). destruct (HA k x (or_introl eq_refl)) as [[l G] HT].
    cbn [asserted]. destruct (attribute_cases inst k) as [[v Ev]|Ev]; rewrite Ev.
    - pose proof Ev as Hv. apply attribute_has in Hv. destruct (HT v Hv) as (t & Ht). pose proof Ht as Et.
      apply (parameter_text _ _ _ _ HU) in Et. rewrite Et. cbn [bind].
      destruct (among peq v x) eqn:E1; [|destruct (among peq (VStr t) x) eqn:E2]; cbn [negb andb].
      1, 2: exists b; split; [exact B1|]; rewrite B2; split; [|intros H k' x' l' Hin; apply H; now right];
        intros H k' x' l' [E|Hin] G'; [injection E as <- <-|now apply (H _ _ _ Hin G')];
        rewrite <- (listify_given _ _ G'), (listify_given _ _ G) in *; exists v; (split; [exact Hv|]).
      + left. now apply (among_value _ _ _ G).
      + right. exists t. split; [exact Ht|]. now apply (among_text _ _ _ G).
      + exists false. split; [reflexivity|]. split; [discriminate|]. intros H. exfalso.
        destruct (H k x l (or_introl eq_refl) G) as (v' & Hv' & H'). rewrite (has_one _ _ _ Hv' Hv) in H'.
        destruct H' as [H'|(t' & Ht' & H')].
        * apply (among_value _ _ _ G) in H'. congruence.
        * rewrite (shown_one _ _ _ _ Ht' Ht) in H'. apply (among_text _ _ _ G) in H'. congruence.
    - exists false. split; [reflexivity|]. split; [discriminate|]. intros H. exfalso.
      destruct (H k x l (or_introl eq_refl) G) as (v' & Hv' & _). apply attribute_has in Hv'. congruence.
  Qed.

  Lemma dropped_ok asked : answerable asked -> exists b, dropped peq base inst asked = Ok b /\
    (b = true <-> exists k x l, In (k, x) asked /\ given x l /\ rejected base inst k l).
  Proof.
    induction asked as [|[k x] rest IH]; intros HA.
    { exists false. split; [reflexivity|]. split; [discriminate|]. intros (k & x & l & [] & _). }
    destruct (IH (fun k x H => HA k x (or_intror H))) as (b & B1 & B2). destruct (HA k x (or_introl eq_refl)) as [[l G] HT].
    assert (HB : ~ rejected base inst k l -> (b = true <-> exists k' x' l', In (k', x') ((k, x) :: rest) /\ given x' l' /\ rejected base inst k' l')).
    { intros HR. rewrite B2. split; intros (k' & x' & l' & Hin & G' & H).
      - exists k', x', l'. split; [now right|]. now split.
      - destruct Hin as [E|Hin]; [|exists k', x', l'; tauto]. injection E as <- <-. exfalso. apply HR.
        rewrite <- (listify_given _ _ G'), (listify_given _ _ G) in H. exact H. }
    cbn [dropped]. destruct (attribute_cases inst k) as [[v Ev]|Ev]; rewrite Ev.
    - pose proof Ev as Hv. apply attribute_has in Hv. destruct (HT v Hv) as (t & Ht). pose proof Ht as Et.
      apply (parameter_text _ _ _ _ HU) in Et. rewrite Et. cbn [bind].
      destruct (among peq (VStr t) x) eqn:E2.
      + exists true. split; [reflexivity|]. split; [|reflexivity]. intros _. exists k, x, l. split; [now left|]. split; [exact G|].
        exists v, t. split; [exact Hv|]. split; [exact Ht|]. now apply (among_text _ _ _ G).
      + exists b. split; [exact B1|]. apply HB. intros (v' & t' & Hv' & Ht' & H). rewrite (has_one _ _ _ Hv' Hv) in Ht'.
        rewrite (shown_one _ _ _ _ Ht' Ht) in H. apply (among_text _ _ _ G) in H. congruence.
    - exists b. split; [exact B1|]. apply HB. intros (v' & t' & Hv' & _). apply attribute_has in Hv'. congruence.
  Qed.

  Theorem matches_ok drop_vals assert_vals : answerable drop_vals -> answerable assert_vals ->
    exists b, matches peq base inst drop_vals assert_vals = Ok b /\
      (b = true <-> (forall k x l, In (k, x) assert_vals -> given x l -> accepted peq base inst k l) /\
                    (forall k x l, In (k, x) drop_vals -> given x l -> ~ rejected base inst k l)).
  Proof.
    intros HD HA. destruct (asserted_ok _ HA) as (a & A1 & A2). destruct (dropped_ok _ HD) as (d & D1 & D2).
    unfold matches. rewrite A1. cbn [bind]. destruct a.
    - rewrite D1. cbn [bind]. exists (negb d). split; [reflexivity|]. rewrite negb_true_iff. split.
      + intros ->. split; [now apply A2|]. intros k x l H1 H2 H3. enough (false = true) by discriminate. apply D2. eauto 8.
      + intros [_ H]. apply not_true_is_false. intros ->. destruct (proj1 D2 eq_refl) as (k & x & l & H1 & H2 & H3). now apply (H k x l).
    - exists false. split; [reflexivity|]. split; [discriminate|]. intros [H _]. now apply A2.
  Qed.

  (** values that are no texts leave nothing out *)
  Theorem values_drop_nothing drop_vals : answerable drop_vals ->
    (forall k x l, In (k, x) drop_vals -> given x l -> forall t, ~ In (VStr t) l) ->
    matches peq base inst drop_vals [] = Ok true.
  Proof.
    intros HD HV. destruct (matches_ok drop_vals [] HD) as (b & B1 & B2).
    { intros k x []. }
    rewrite B1. f_equal. apply B2. split; [intros k x l []|]. intros k x l H1 H2 (v & t & _ & _ & H). exact (HV k x l H1 H2 t H).
  Qed.

  (** matches_param: the text without the name *)
  Theorem param_ok f v u drop_vals assert_vals : has inst (f_name f) v -> value_text v u ->
    (forall k x, In (k, x) drop_vals \/ In (k, x) assert_vals -> exists l, given x l) ->
    exists b, matches_param peq f inst drop_vals assert_vals = Ok b /\
      (b = true <-> (forall x l, gd_get streq assert_vals (f_name f) = Some x -> given x l -> In (VStr u) l) /\
                    (forall x l, gd_get streq drop_vals (f_name f) = Some x -> given x l -> ~ In (VStr u) l)).
  Proof.
    intros Hv Hu HG. apply attribute_has in Hv. apply field_text_iff in Hu. unfold matches_param, stringify. rewrite Hv. cbn [bind].
    rewrite Hu. cbn [bind]. rewrite andb_false_r.
    assert (HX : forall (asked : list (pystr * pval)) x, gd_get streq asked (f_name f) = Some x -> In (f_name f, x) asked).
    { intros asked x E. now apply (get_in streq streq_spec) in E. }
    assert (HY : forall x l, given x l -> forall l', given x l' -> l' = l).
    { intros x l G l' G'. rewrite <- (listify_given _ _ G), <- (listify_given _ _ G'). reflexivity. }
    destruct (gd_get streq drop_vals (f_name f)) as [x|] eqn:Ed.
    - destruct (HG _ _ (or_introl (HX _ _ Ed))) as (l & G). destruct (among peq (VStr u) x) eqn:E1.
      + exists false. split; [reflexivity|]. split; [discriminate|]. intros [_ H]. exfalso. apply (H x l eq_refl G).
        now apply (among_text _ _ _ G).
      + assert (N1 : ~ In (VStr u) l) by (rewrite <- (among_text _ _ _ G); congruence).
        destruct (gd_get streq assert_vals (f_name f)) as [y|] eqn:Ea.
        * destruct (HG _ _ (or_intror (HX _ _ Ea))) as (m & Gm). eexists. split; [reflexivity|]. rewrite (among_text _ _ _ Gm). split.
          -- intros H. split; intros z n E; injection E as <-; intros Gn.
             ++ now rewrite (HY _ _ Gm _ Gn).
             ++ now rewrite (HY _ _ G _ Gn).
          -- intros [H _]. now apply (H y m).
        * exists true. split; [reflexivity|]. split; [|reflexivity]. intros _. split; [discriminate|]. intros z n E; injection E as <-; intros Gn.
          now rewrite (HY _ _ G _ Gn).
    - destruct (gd_get streq assert_vals (f_name f)) as [y|] eqn:Ea.
      + destruct (HG _ _ (or_intror (HX _ _ Ea))) as (m & Gm). eexists. split; [reflexivity|]. rewrite (among_text _ _ _ Gm). split.
        * intros H. split; [|discriminate]. intros z n E; injection E as <-; intros Gn. now rewrite (HY _ _ Gm _ Gn).
        * intros [H _]. now apply (H y m).
      + exists true. split; [reflexivity|]. split; [|reflexivity]. intros _. split; discriminate.
  Qed.
End select.
