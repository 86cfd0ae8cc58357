(** What a directory string and its reading depend on: the attributes of the fields. *)
From Verif Require Import Proofs.DictFacts Proofs.PyFacts Proofs.ParamsFacts Proofs.StrFacts Proofs.PathFacts Proofs.StructuresFacts Proofs.StructuresRead
  Proofs.StructuresTop Proofs.StructuresNeg Proofs.NestedFacts Proofs.NestedRead Proofs.NestedTop Spec.NestedSpec.
Open Scope Z_scope.

Definition agree (members : list member) (a b : sattrs) : Prop := forall n, In n (map member_name members) ->
  gd_get streq b n = gd_get streq a n /\ gd_get streq (own_attrs b) n = gd_get streq (own_attrs a) n.

Lemma agree_attr members a b f : agree members a b -> In f (own_fields members) ->
  get_attr (own_attrs b) (f_name f) = get_attr (own_attrs a) (f_name f).
Proof.
  intros H Hf. apply own_in in Hf. unfold get_attr. destruct (H (f_name f)) as [_ ->]; [|reflexivity].
  apply in_map_iff. now exists (MField f).
Qed.
Lemma string_ext members a b : agree members a b -> nested_string members b = nested_string members a.
Proof.
  intros HA.
  assert (HS : member_strings members b = member_strings members a).
  { assert (HL : forall l, incl l members -> member_strings l b = member_strings l a); [|now apply HL].
    induction l as [|m l IH]; intros Hl; [reflexivity|]. cbn [member_strings]. rewrite (IH (fun x H => Hl x (or_intror H))).
    replace (member_string m b) with (member_string m a); [reflexivity|]. assert (Hm : In m members) by (apply Hl; now left).
    destruct m as [f|n req k p t con]; cbn [member_string].
    - destruct (f_transient f || negb (f_positional f)); [reflexivity|].
      now rewrite (agree_attr members a b f HA) by now apply own_in.
    - destruct (HA n) as [-> _]; [|reflexivity]. apply in_map_iff. eexists. split; [|exact Hm]. reflexivity. }
  unfold nested_string, string_of_parts. rewrite HS.
  rewrite (nonpos_ext (own_fields members) (own_attrs b) (own_attrs a)); [reflexivity|].
  intros f Hf _. rewrite (agree_attr members a b f HA Hf). now destruct (get_attr (own_attrs a) (f_name f)).
Qed.

Section ok.
  Variable literal_eval : pystr -> option pval.
  Variable uninumeric : pystr -> bool.
  Variable is_float : pystr -> bool.
  Lemma ok_ext members a b : agree members a b -> nested_ok literal_eval uninumeric is_float members a -> nested_ok literal_eval uninumeric is_float members b.
  Proof.
    intros HA H. inversion H as [? ? O1 O2 O3 O4 O5 O6 O7]; subst. constructor; try assumption.
    - destruct O2 as [I1 I2 I3 I4 I5]. constructor.
      + intros f Hf. rewrite (agree_attr _ _ _ _ HA Hf). now apply I1.
      + intros f Hf. rewrite (agree_attr _ _ _ _ HA Hf). now apply I2.
      + intros f Hf. rewrite (agree_attr _ _ _ _ HA Hf). now apply I3.
      + intros X. destruct (I4 X) as (f & v & t & Hf & R). exists f, v, t. split; [exact Hf|]. now rewrite (agree_attr _ _ _ _ HA Hf).
      + intros f v Hf. rewrite (agree_attr _ _ _ _ HA Hf). now apply I5.
    - intros f Hf. rewrite (agree_attr _ _ _ _ HA Hf). now apply O3.
    - intros d. rewrite (string_ext _ _ _ HA). apply O6.
    - intros m Hm. specialize (O7 m Hm). inversion O7 as [|? n req ms inh x X1 X2 X3]; subst; [constructor|].
      econstructor; [|exact X2|exact X3]. destruct (HA n) as [-> _]; [|exact X1]. apply in_map_iff. eexists. split; [|exact Hm]. reflexivity.
  Qed.
End ok.

(** attributes after those of the fields *)
Lemma agree_app members a e : (forall n, In n (map fst e) -> ~ In n (map member_name members)) -> agree members a (a ++ e).
Proof.
  intros HE n Hn.
  assert (G : forall {V} (x y : list (pystr * V)), ~ In n (map fst y) -> gd_get streq (x ++ y) n = gd_get streq x n).
  { intros V x y H. induction x as [|[k v] x IH]; cbn; [|now rewrite IH]. now apply (DictFacts.get_none streq streq_spec). }
  split.
  - apply G. intros H. now apply (HE n H).
  - unfold own_attrs. rewrite flat_map_app. apply G. intros H. apply (HE n); [|exact Hn].
    apply in_map_iff in H as ([k v] & <- & H). apply in_flat_map in H as ([q s] & H1 & H2). destruct s; [|destruct H2].
    destruct H2 as [X|[]]. injection X as <- <-. apply in_map_iff. now exists (q, SVal v0).
Qed.
