(** Structures with other Structures in them: construction and the theorem. *)
From Coq Require Import Permutation.
From Verif Require Import Proofs.DictFacts Proofs.ParamsFacts Proofs.StrFacts Proofs.PyFacts Proofs.FileNamesFacts
  Proofs.PathFacts Proofs.StructuresFacts Proofs.StructuresRead Proofs.StructuresTop Proofs.NestedFacts Proofs.NestedRead
  Spec.NestedSpec.
Open Scope Z_scope.

Lemma own_get (a : sattrs) n : NoDup (map fst a) ->
  get_value a n = match gd_get streq a n with Some (SVal (Some v)) => Some v | _ => None end.
Proof.
  unfold get_value, get_attr. induction a as [|[m s] a IH]; intros HN; [reflexivity|]. cbn [map fst] in HN.
  inversion HN as [|? ? N HN']; subst. cbn [gd_get]. destruct s as [v|b].
  - cbn [own_attrs flat_map snd fst app gd_get]. destruct (streq m n) eqn:E; [now destruct v|]. exact (IH HN').
  - cbn [own_attrs flat_map snd fst app]. destruct (streq m n) eqn:E; [|exact (IH HN')].
    apply streq_spec in E. subst m. fold (own_attrs a).
    assert (X : gd_get streq (own_attrs a) n = None).
    { apply (DictFacts.get_none streq streq_spec). intros H. apply N. apply in_map_iff in H as ([k v] & <- & H). cbn [fst].
      apply in_flat_map in H as ([k' s'] & H1 & H2). cbn [snd fst] in H2. destruct s'; [|destruct H2].
      destruct H2 as [E|[]]. injection E as -> ->. apply in_map_iff. exists (k, SVal v). now split. }
    now rewrite X.
Qed.

Lemma filter_get {V} (P : pystr -> bool) (d : list (pystr * V)) k : P k = true ->
  gd_get streq (filter (fun p => P (fst p)) d) k = gd_get streq d k.
Proof.
  intros H. induction d as [|[m v] d IH]; [reflexivity|]. cbn [filter fst gd_get]. destruct (P m) eqn:E; cbn [gd_get].
  - now rewrite IH.
  - destruct (streq m k) eqn:Em; [|exact IH]. apply streq_spec in Em. congruence.
Qed.
Lemma others_get members kw k : ~ In k (map member_name members) ->
  gd_get streq (other_keywords members kw) k = gd_get streq kw k.
Proof.
  intros H. unfold other_keywords. apply (filter_get (fun k => negb (existsb (streq k) (map member_name members)))).
  apply negb_true_iff, not_true_is_false. rewrite existsb_streq. exact H.
Qed.

Lemma inherited_s_other inh kw : forall a n, ~ In n inh -> gd_get streq (set_inherited_s inh kw a) n = gd_get streq a n.
Proof.
  unfold set_inherited_s. induction inh as [|m inh IH]; intros a n N; [reflexivity|]. cbn [fold_left].
  rewrite IH by (intros H; apply N; now right). destruct (gd_get streq kw m); [|reflexivity].
  rewrite (get_set streq streq_spec), streq_ne; [reflexivity|]. intros ->. apply N. now left.
Qed.
Lemma inherited_s_set inh kw v : forall a n, In n inh \/ gd_get streq a n = Some (SVal (Some v)) -> gd_get streq kw n = Some v ->
  gd_get streq (set_inherited_s inh kw a) n = Some (SVal (Some v)).
Proof.
  unfold set_inherited_s. induction inh as [|m inh IH]; intros a n H E; cbn [fold_left].
  - destruct H as [[]|H]. exact H.
  - apply IH; [|exact E]. destruct (streq m n) eqn:Em.
    + apply streq_spec in Em. subst m. right. rewrite E. now rewrite (get_set streq streq_spec), streq_refl.
    + assert (Nm : m <> n) by (intros ->; rewrite streq_refl in Em; discriminate).
      destruct H as [[H|H]|H]; [contradiction|now left|]. right. destruct (gd_get streq kw m); [|exact H].
      now rewrite (get_set streq streq_spec), Em.
Qed.
Lemma inherited_s_nodup inh kw : forall a, NoDup (map fst a) -> NoDup (map fst (set_inherited_s inh kw a)).
Proof.
  unfold set_inherited_s. induction inh as [|m inh IH]; intros a H; [exact H|]. cbn [fold_left]. apply IH.
  destruct (gd_get streq kw m); [|exact H]. now apply (set_nodup streq streq_spec).
Qed.

Lemma nonpos_ext fs a b : (forall f, In f fs -> shown f ->
    match get_attr a (f_name f), get_attr b (f_name f) with
    | Some v, Some w => field_text v = field_text w
    | None, None => True
    | _, _ => False
    end) -> get_nonpos_string a fs = get_nonpos_string b fs.
Proof.
  intros H.
  assert (HN : forall np args, nonpos_loop a fs np args = nonpos_loop b fs np args).
  { induction fs as [|f l IH]; intros np args; [reflexivity|]. cbn [nonpos_loop].
    assert (IH' := IH ltac:(intros g Hg; apply H; now right)). clear IH.
    destruct (f_transient f) eqn:Et; [apply IH'|]. cbn [orb]. destruct (f_positional f); [apply IH'|].
    specialize (H f ltac:(now left) Et). destruct (get_attr a (f_name f)) as [v|], (get_attr b (f_name f)) as [w|]; try contradiction.
    - rewrite (stringify_ext _ _ _ _ H). destruct (f_keyword f).
      + destruct (stringify f w false); cbn [bind]; [apply IH'|reflexivity].
      + destruct np; [reflexivity|]. destruct (stringify f w false); cbn [bind]; [apply IH'|reflexivity].
    - now rewrite IH'. }
  unfold get_nonpos_string. now rewrite HN.
Qed.

Lemma names_incl members n : In n (map member_name members) -> In n (all_names members).
Proof.
  intros H. apply in_map_iff in H as (m & <- & Hm). apply in_flat_map. exists m. split; [exact Hm|].
  destruct m; now left.
Qed.
Lemma names_nodup members : NoDup (all_names members) -> NoDup (map member_name members).
Proof.
  induction members as [|m l IH]; intros H; [constructor|]. cbn [map]. change (all_names (m :: l)) with (names m ++ all_names l) in H.
  apply nodup_app in H as (_ & H2 & H3). constructor; [|now apply IH].
  intros H. apply (H3 (member_name m)); [destruct m; now left|now apply names_incl].
Qed.
(** the names of the classes held are not among the names of the class *)
Lemma inner_names members n req k p t ms inh : NoDup (all_names members) ->
  In (MStruct n req k p t (Some (ms, inh))) members -> forall x, In x (all_names ms) -> ~ In x (map member_name members).
Proof.
  intros HN Hm x Hx H. apply in_split in Hm as (L & D & ->). rewrite map_app in H. unfold all_names in HN.
  rewrite flat_map_app in HN. cbn [flat_map names] in HN. cbn [app] in HN. fold (all_names ms) in HN. fold (all_names L) in HN.
  apply nodup_app in HN as (_ & HN & H1). inversion HN as [|? ? H2 HN']; subst. apply nodup_app in HN' as (_ & _ & H3).
  apply in_app_iff in H as [H|[H|H]].
  - apply names_incl in H. apply (H1 x H). right. apply in_app_iff. now left.
  - apply H2. cbn [member_name] in H. subst x. apply in_app_iff. now left.
  - apply names_incl in H. now apply (H3 x).
Qed.
Lemma inner_nodup members n req k p t ms inh : NoDup (all_names members) ->
  In (MStruct n req k p t (Some (ms, inh))) members -> NoDup (all_names ms).
Proof.
  intros HN Hm. apply in_split in Hm as (L & D & ->). unfold all_names in HN. rewrite flat_map_app in HN.
  apply nodup_app in HN as (_ & HN & _). cbn [flat_map names app] in HN. inversion HN as [|? ? _ HN']; subst.
  now apply nodup_app in HN' as (HN' & _).
Qed.
Lemma inner_in members n req k p t ms inh : In (MStruct n req k p t (Some (ms, inh))) members ->
  forall x, In x (all_names ms) -> In x (all_names members).
Proof. intros Hm x Hx. apply in_flat_map. eexists. split; [exact Hm|]. right. exact Hx. Qed.

Section build.
  Variable literal_eval : pystr -> option pval.
  Variable uni : pystr -> option Z.
  Variable uninumeric : pystr -> bool.
  Variable pval_eq : pval -> pval -> bool.
  Variable other_int : pystr -> option Z.
  Variable is_float : pystr -> bool.
  Variable to_float : pval -> option pval.
  Variable to_str : pval -> pystr.
  Variable other_true : pystr -> bool.
  Variable unineg : pystr -> bool.
  Hypothesis HE : evaluates literal_eval.
  Notation nested_ok := (nested_ok literal_eval uninumeric is_float).
  Notation inst_ok := (inst_ok literal_eval uninumeric).
  Notation all_kept := (all_kept literal_eval uninumeric is_float).
  Notation fin_of := (fin_of literal_eval uni uninumeric).
  Notation member_set := (member_set literal_eval uni uninumeric pval_eq other_int is_float to_float to_str other_true unineg).
  Notation members_set := (members_set literal_eval uni uninumeric pval_eq other_int is_float to_float to_str other_true unineg).
  Notation nested_construct := (nested_construct literal_eval uni uninumeric pval_eq other_int is_float to_float to_str other_true unineg).
  Notation nested_from_dir := (nested_from_dir literal_eval uni uninumeric pval_eq).
  Notation nested_from_dir_string :=
    (nested_from_dir_string literal_eval uni uninumeric pval_eq other_int is_float to_float to_str other_true unineg).

  Lemma member_set_struct kw others n req k p t ms inh inst : gd_get streq kw n = None ->
    member_set kw others (MStruct n req k p t (Some (ms, inh))) inst =
    match others with
    | [] => if req then Err TypeError else Ok inst
    | _ => match nested_construct ms inh others with
           | Ok s => Ok (gd_set streq inst n (SInst s))
           | Err TypeError => if req then Err TypeError else Ok inst
           | Err e => Err e
           end
    end.
  Proof.
    intros E. cbn [Nested.member_set]. rewrite E. destruct others as [|o others]; [reflexivity|].
    match goal with |- context[(fix go (l : list member) (a : sattrs) {struct l} : result sattrs := _) ms []] =>
      match goal with |- context[?g ms []] => assert (EG : forall l a, g l a = members_set (o :: others) (other_keywords ms (o :: others)) l a) end end.
    { induction l as [|x l IH]; intros a; [reflexivity|]. cbn [Nested.members_set].
      destruct (member_set (o :: others) (other_keywords ms (o :: others)) x a) as [a1|]; cbn [bind]; [apply IH|reflexivity]. }
    rewrite EG. reflexivity.
  Qed.

  Definition builds (members : list member) (a : sattrs) : Prop :=
    forall inh kw base, NoDup (all_names members) -> ~ In (lit "base_dir") (all_names members) ->
      (forall n, In n inh -> ~ In n (map member_name members)) ->
      (forall f x, inside members a f x -> gd_get streq kw (f_name f) = fin_val x (fin_of x) f) ->
      (forall n, In n (all_names members) -> (forall f x, inside members a f x -> f_name f <> n) -> gd_get streq kw n = None) ->
      gd_get streq kw (lit "base_dir") = Some (VStr base) ->
      exists b, nested_construct members inh kw = Ok b /\ restored base members inh a b.
  Definition member_builds (a : sattrs) (m : member) : Prop :=
    match m with
    | MField _ => True
    | MStruct n req k p t con => exists ms inh b, con = Some (ms, inh) /\ gd_get streq a n = Some (SInst b) /\ builds ms b /\
        (forall n, In n inh -> ~ In n (map member_name ms))
    end.

  Lemma builds_class members a : inst_ok (own_fields members) (own_attrs a) ->
    all_kept (own_fields members) (own_attrs a) -> (forall m, In m members -> member_builds a m) -> builds members a.
  Proof.
    intros HI HA HM inh kw base HN HB Hinh HK HO HKB.
    set (others := other_keywords members kw).
    assert (Hothers : exists o l, others = o :: l).
    { assert (G : gd_get streq others (lit "base_dir") = Some (VStr base)).
      { unfold others. rewrite others_get; [exact HKB|]. intros H. apply HB. now apply names_incl. }
      destruct others as [|o l]; [discriminate|eauto]. }
    set (done := fun (m : member) (b : sattrs) => match m with
      | MField f => shown f -> gd_get streq b (f_name f) = match get_attr (own_attrs a) (f_name f) with Some _ => Some (SVal (Some (fin_of (own_attrs a) f))) | None => None end \/
          (get_attr (own_attrs a) (f_name f) = None /\ gd_get streq b (f_name f) = Some (SVal None))
      | MStruct n _ _ _ _ con => exists ms inh x y, con = Some (ms, inh) /\ gd_get streq a n = Some (SInst x) /\
          gd_get streq b n = Some (SInst y) /\ restored base ms inh x y
      end).
    assert (HL : forall l, incl l members -> NoDup (map member_name l) -> forall inst, NoDup (map fst inst) ->
      (forall n, In n (map member_name l) -> gd_get streq inst n = None) ->
      exists b, members_set kw others l inst = Ok b /\ NoDup (map fst b) /\ (forall m, In m l -> done m b) /\
        (forall n, ~ In n (map member_name l) -> gd_get streq b n = gd_get streq inst n)).
    { induction l as [|m l IH]; intros Hl HNl inst HNi Hi.
      { exists inst. split; [reflexivity|]. split; [exact HNi|]. split; [intros m []|reflexivity]. }
      assert (Hm : In m members) by (apply Hl; now left). cbn [map] in HNl. inversion HNl as [|? ? N1 N2]; subst.
      assert (HX : exists b1, member_set kw others m inst = Ok b1 /\ NoDup (map fst b1) /\ done m b1 /\
        (forall n, n <> member_name m -> gd_get streq b1 n = gd_get streq inst n)).
      { destruct m as [f|n req k p t con].
        - assert (Hf : In f (own_fields members)) by now apply own_in.
          destruct (HA f Hf) as [A1 A2]. pose proof (HK f (own_attrs a) (Here _ _ _ Hm)) as EK. unfold fin_val, isset in EK.
          cbn [member_name] in *. cbn [Nested.member_set].
          assert (HU : gd_get streq kw (f_name f) = None -> f_default f = None -> f_required f = false ->
            exists o, set_self literal_eval uni uninumeric other_int is_float to_float to_str other_true f [] kw = Ok o /\
              (o = [] \/ exists v, o = [(f_name f, v)] /\ (f_class f <> CList -> v = None))).
          { intros E1 E2 E3. unfold set_self, list_set_self, keyed_set_self, plain_set. rewrite E1, E2, E3.
            destruct (f_class f); eexists; (split; [reflexivity|]); try (now left);
              (right; eexists; split; [reflexivity|]); [intros H; contradiction|reflexivity]. }
          assert (HW : forall v, NoDup (map fst (gd_set streq inst (f_name f) v)) /\
            (forall n, n <> f_name f -> gd_get streq (gd_set streq inst (f_name f) v) n = gd_get streq inst n) /\
            gd_get streq (gd_set streq inst (f_name f) v) (f_name f) = Some v).
          { intros v. split; [now apply (set_nodup streq streq_spec)|]. split.
            - intros n Hn. rewrite (get_set streq streq_spec), streq_ne by congruence. reflexivity.
            - now rewrite (get_set streq streq_spec), streq_refl. }
          destruct (f_transient f) eqn:Et.
          + destruct (A2 eq_refl) as [A3 A4]. cbn [negb andb] in EK. destruct (HU EK A4 A3) as (o & EO & Ho). rewrite EO. cbn [bind].
            destruct Ho as [->|(v & -> & _)].
            * exists inst. split; [reflexivity|]. split; [exact HNi|]. split; [|reflexivity]. unfold done, shown. intros X. congruence.
            * destruct (HW (SVal v)) as (W1 & W2 & W3). eexists. split; [reflexivity|]. split; [exact W1|].
              split; [unfold done, shown; intros X; congruence|exact W2].
          + cbn [negb andb] in EK. destruct (get_attr (own_attrs a) (f_name f)) as [v|] eqn:Ev.
            * destruct (fin_spec literal_eval uni uninumeric pval_eq other_int is_float to_float to_str other_true HE _ _ HI HA f v Hf Et Ev)
                as (_ & _ & _ & ES). rewrite (ES [] kw EK). cbn [gd_set bind].
              destruct (HW (SVal (Some (fin_of (own_attrs a) f)))) as (W1 & W2 & W3). eexists. split; [reflexivity|]. split; [exact W1|].
              split; [|exact W2]. unfold done. intros _. left. rewrite Ev. exact W3.
            * destruct A1 as [A3 A4]. assert (Er : f_required f = false).
              { apply not_true_is_false. intros Er. now apply (io_req _ _ _ _ HI f Hf Et Er). }
              destruct (HU EK A3 Er) as (o & EO & Ho). rewrite EO. cbn [bind]. destruct Ho as [->|(v & -> & Hv)].
              -- exists inst. split; [reflexivity|]. split; [exact HNi|]. split; [|reflexivity]. unfold done. intros _. left.
                 rewrite Ev. apply Hi. now left.
              -- specialize (Hv (A4 Et)). subst v. destruct (HW (SVal None)) as (W1 & W2 & W3). eexists. split; [reflexivity|].
                 split; [exact W1|]. split; [|exact W2]. unfold done. intros _. right. rewrite Ev. tauto.
        - destruct (HM _ Hm) as (ms & inh' & b & -> & Eb & HBD & Hinh'). cbn [member_name] in *.
          assert (Hin : In n (all_names members)) by (apply in_flat_map; eexists; split; [exact Hm|now left]).
          assert (En : gd_get streq kw n = None).
          { apply HO; [exact Hin|]. intros f x Hx E.
            assert (XN : forall x0, In x0 (all_names ms) -> ~ In x0 (map member_name members)) by (eapply inner_names; [exact HN|exact Hm]).
            clear -HN Hm Hx E. pose proof (names_nodup _ HN) as NN.
            inversion Hx as [? ? ? Hf|? ? n' req' k' p' t' ms' inh'' b' ? ? Hs Eb' Hi']; subst.
            - apply in_split in Hm as (L & D & ->). rewrite map_app in NN. cbn [map member_name] in NN.
              apply NoDup_remove_2 in NN. apply NN. rewrite in_app_iff.
              apply in_app_iff in Hf as [Hf|[Hf|Hf]]; [|discriminate|].
              + left. apply in_map_iff. exists (MField f). split; [reflexivity|exact Hf].
              + right. apply in_map_iff. exists (MField f). split; [reflexivity|exact Hf].
            - apply (inner_names members n' req' k' p' t' ms' inh'' HN Hs (f_name f)); [now apply inside_name in Hi'|].
              apply in_map_iff. eexists. split; [|exact Hm]. reflexivity. }
          rewrite (member_set_struct kw others n req k p t ms inh' inst En).
          assert (HIN := inner_names members n req k p t ms inh' HN Hm).
          destruct (HBD inh' others base) as (y & Y1 & Y2).
          + eapply inner_nodup; eassumption.
          + intros H. apply HB. eapply inner_in; eassumption.
          + exact Hinh'.
          + intros f x Hx. unfold others. rewrite others_get by (apply HIN; now apply inside_name in Hx).
            apply HK. econstructor; [exact Hm|exact Eb|exact Hx].
          + intros q Hq Hq2. unfold others. rewrite others_get by now apply HIN.
            apply HO; [eapply inner_in; eassumption|]. intros f x Hx E. subst q.
            assert (Hf : inside ms b f x).
            { clear -Hx HN Hm Hq Eb HIN. inversion Hx as [? ? ? Hf|? ? n' req' k' p' t' ms' inh'' b' ? ? Hs Eb' Hi']; subst.
              - exfalso. apply (HIN (f_name f) Hq). apply in_map_iff. exists (MField f). split; [reflexivity|exact Hf].
              - (* the Struct that holds the name is this one *)
                pose proof (inside_name _ _ _ _ Hi') as Hq'.
                assert (ES : MStruct n' req' k' p' t' (Some (ms', inh'')) = MStruct n req k p t (Some (ms, inh'))).
                { apply in_split in Hm as (L & D & ->). unfold all_names in HN. rewrite flat_map_app in HN. cbn [flat_map] in HN.
                  apply nodup_app in HN as (_ & HN & H1). apply nodup_app in HN as (_ & _ & H3).
                  apply in_app_iff in Hs as [Hs|[Hs|Hs]]; [|now symmetry|].
                  - exfalso. apply (H1 (f_name f)); [apply in_flat_map; eexists; split; [exact Hs|right; exact Hq']|].
                    apply in_app_iff. left. right. exact Hq.
                  - exfalso. apply (H3 (f_name f)); [right; exact Hq|]. apply in_flat_map. eexists. split; [exact Hs|right; exact Hq']. }
                injection ES as -> -> -> -> -> -> ->. rewrite Eb in Eb'. injection Eb' as <-. exact Hi'. }
            now apply (Hq2 f x).
          + unfold others. rewrite others_get; [exact HKB|]. intros H. apply HB. now apply names_incl.
          + rewrite Y1. destruct Hothers as (o & ol & Eo). rewrite Eo. eexists. split; [reflexivity|].
            split; [now apply (set_nodup streq streq_spec)|]. split.
            * unfold done. exists ms, inh', b, y. split; [reflexivity|]. split; [exact Eb|]. split; [|exact Y2].
              now rewrite (get_set streq streq_spec), streq_refl.
            * intros q Hq. rewrite (get_set streq streq_spec), streq_ne by congruence. reflexivity. }
      destruct HX as (b1 & X1 & X2 & X3 & X4).
      destruct (IH (fun x H => Hl x (or_intror H)) N2 b1 X2) as (b2 & Y1 & Y2 & Y3 & Y4).
      { intros n Hn. rewrite X4; [apply Hi; now right|]. intros ->. contradiction. }
      exists b2. split; [cbn [Nested.members_set]; rewrite X1; exact Y1|]. split; [exact Y2|]. split.
      - intros q [<-|Hq]; [|now apply Y3]. unfold done in X3 |- *. destruct m as [f|n req k p t con]; cbn [member_name] in *.
        + rewrite Y4 by exact N1. exact X3.
        + rewrite Y4 by exact N1. exact X3.
      - intros n Hn. rewrite Y4 by (intros H; apply Hn; now right). apply X4. intros ->. apply Hn. now left. }
    destruct (HL members (fun x H => H) (names_nodup _ HN) [] (NoDup_nil _) (fun n _ => eq_refl)) as (b & B1 & B2 & B3 & _).
    exists (set_inherited_s inh kw b). split; [unfold Nested.nested_construct; fold others; rewrite B1; reflexivity|].
    assert (NDB := inherited_s_nodup inh kw b B2).
    assert (G : forall n, In n (map member_name members) -> gd_get streq (set_inherited_s inh kw b) n = gd_get streq b n).
    { intros n Hn. apply inherited_s_other. intros H. now apply (Hinh n H). }
    constructor.
    - intros f Hf Hs. rewrite (own_get (set_inherited_s inh kw b) _ NDB), G
        by (apply in_map_iff; exists (MField f); split; [reflexivity|exact Hf]).
      pose proof (B3 _ Hf Hs) as D. unfold get_value. apply own_in in Hf. destruct (get_attr (own_attrs a) (f_name f)) as [v|] eqn:Ev.
      + destruct D as [D|[D _]]; [|discriminate]. rewrite D.
        now destruct (fin_spec literal_eval uni uninumeric pval_eq other_int is_float to_float to_str other_true HE _ _ HI HA f v Hf Hs Ev)
          as (_ & _ & ? & _).
      + destruct D as [D|[_ D]]; now rewrite D.
    - intros Hb. rewrite own_get by exact NDB. now rewrite (inherited_s_set inh kw (VStr base) b (lit "base_dir") (or_introl Hb) HKB).
    - intros m Hm. pose proof (B3 m Hm) as D. destruct m as [f|n req k p t con]; [constructor|].
      destruct D as (ms & inh' & x & y & -> & D1 & D2 & D3). econstructor; [exact D1| |exact D3].
      rewrite G; [exact D2|]. apply in_map_iff. eexists. split; [|exact Hm]. reflexivity.
  Qed.

  Lemma builds_all members a : nested_ok members a -> builds members a.
  Proof.
    intros H. revert members a H. apply (nested_mut literal_eval uninumeric is_float builds member_builds).
    - intros members a HC HI HA _ _ _ _ HM. now apply builds_class.
    - intros a f. exact I.
    - intros a n req ms inh b Eb _ HB Hinh. exists ms, inh, b. tauto.
  Qed.

  (** ** The string of the restored instance *)
  Lemma same_string base members a : nested_ok members a -> forall inh b, restored base members inh a b ->
    nested_string members b = nested_string members a.
  Proof.
    intros H. revert members a H.
    apply (nested_mut literal_eval uninumeric is_float
      (fun members a => forall inh b, restored base members inh a b -> nested_string members b = nested_string members a)
      (fun a m => forall b, restored_member base m a b -> match m with MField _ => True | _ => member_string m b = member_string m a end)).
    - intros members a HC HI HA _ _ _ _ HM inh b HR. inversion HR as [? ? ? ? R1 _ R3]; subst.
      assert (HT : forall f, In f (own_fields members) -> shown f ->
        match get_attr (own_attrs b) (f_name f), get_attr (own_attrs a) (f_name f) with
        | Some v, Some w => field_text v = field_text w
        | None, None => True
        | _, _ => False
        end).
      { intros f Hf Hs. pose proof Hf as Hf2. apply own_in in Hf2. specialize (R1 f Hf2 Hs). unfold get_value in R1.
        destruct (HA f Hf) as [A _].
        destruct (get_attr (own_attrs a) (f_name f)) as [v|], (get_attr (own_attrs b) (f_name f)) as [w|]; try exact R1.
        symmetry. exact (kept_same_text literal_eval uninumeric is_float f v w (A Hs) R1). }
      assert (HP : forall l, incl l members -> member_strings l b = member_strings l a).
      { induction l as [|m l IH]; intros Hl; [reflexivity|]. cbn [member_strings].
        assert (Hm : In m members) by (apply Hl; now left).
        rewrite (IH (fun x H => Hl x (or_intror H))). replace (member_string m b) with (member_string m a); [reflexivity|].
        specialize (HM m Hm b (R3 m Hm)). destruct m as [f|n req k p t con]; [|now symmetry].
        cbn [member_string]. destruct (f_transient f) eqn:Et; [reflexivity|]. cbn [orb]. destruct (negb (f_positional f)); [reflexivity|].
        specialize (HT f (proj2 (own_in f members) Hm) Et).
        destruct (get_attr (own_attrs a) (f_name f)) as [v|], (get_attr (own_attrs b) (f_name f)) as [w|]; try contradiction; [|reflexivity].
        now rewrite (stringify_ext f w v false HT). }
      unfold nested_string, string_of_parts. rewrite (HP members (fun x H => H)), (nonpos_ext (own_fields members) (own_attrs b) (own_attrs a) HT).
      reflexivity.
    - intros a f b _. exact I.
    - intros a n req ms inh x Ex _ HS _ b HR. inversion HR as [|? ? ? ? ? ? ? ? ? x' y Ex' Ey R]; subst.
      rewrite Ex in Ex'. injection Ex' as <-. rewrite !member_string_struct, Ex, Ey. now rewrite (HS inh y R).
  Qed.

  Theorem nested_round members inherited a base : nested_ok members a -> NoDup (all_names members) ->
    ~ In (lit "base_dir") (all_names members) -> (forall n, In n inherited -> ~ In n (map member_name members)) ->
    normal_dir base ->
    exists d b, nested_string members a = Ok d /\
      nested_from_dir_string members inherited (path_join2 base d) = Ok b /\
      restored base members inherited a b /\ nested_string members b = Ok d.
  Proof.
    intros HO HN HB Hinh (rooted & Y & -> & HY).
    destruct (strings_fit literal_eval uninumeric is_float members a HO) as (C1 & C2 & C3).
    destruct (reads_all literal_eval uni uninumeric pval_eq other_int is_float to_float to_str other_true HE members a HO HN HB rooted Y HY)
      as (kw & K1 & K2 & K3 & K4 & K5).
    destruct (builds_all members a HO inherited kw (path_text rooted Y) HN HB Hinh K4) as (b & B1 & B2).
    { intros n Hn Hi. apply K5; [|exact Hi]. intros ->. contradiction. }
    { exact K3. }
    exists (path_text false (ncomps members a)), b. split; [exact C3|].
    rewrite (join_path rooted Y _ HY C1 C2). unfold Nested.nested_from_dir_string. rewrite K1. cbn [bind]. split; [exact B1|].
    split; [exact B2|]. now rewrite (same_string _ members a HO inherited b B2).
  Qed.
End build.
