(** A Structure is rebuilt from its values. *)
From Verif Require Import Proofs.DictFacts Proofs.PyFacts Proofs.ParamsFacts Proofs.StrFacts Proofs.StructuresFacts Proofs.StructuresRead
  Proofs.StructuresTop Proofs.RecordsFacts Spec.RecordsSpec.
Open Scope Z_scope.

Definition as_value (o : option pval) : pval := match o with Some v => v | None => the_empty end.

Lemma mapM_self {A} (f : A -> result A) l l' : (forall x y, f x = Ok y -> f y = Ok y) -> mapM f l = Ok l' -> mapM f l' = Ok l'.
Proof.
  intros HF. revert l'. induction l as [|x l IH]; intros l' E; cbn [mapM] in E; [injection E as <-; reflexivity|].
  destruct (f x) as [y|] eqn:Ey; cbn [bind] in E; [|discriminate]. destruct (mapM f l) as [ys|]; cbn [bind] in E; [|discriminate].
  injection E as <-. cbn [mapM]. rewrite (HF _ _ Ey). cbn [bind]. now rewrite (IH ys eq_refl).
Qed.
Lemma mapM_firstn {A B} (f : A -> result B) l ys n : mapM f l = Ok ys -> mapM f (firstn n l) = Ok (firstn n ys).
Proof.
  revert l ys. induction n as [|n IH]; intros l ys E; [reflexivity|]. destruct l as [|x l]; cbn [mapM] in E; [injection E as <-; reflexivity|].
  destruct (f x) as [y|] eqn:Ey; cbn [bind] in E; [|discriminate]. destruct (mapM f l) as [zs|] eqn:Ez; cbn [bind] in E; [|discriminate].
  injection E as <-. cbn [firstn mapM]. rewrite Ey. cbn [bind]. now rewrite (IH _ _ Ez).
Qed.

Section build.
  Variable literal_eval : pystr -> option pval.
  Variable uni : pystr -> option Z.
  Variable uninumeric : pystr -> bool.
  Variable other_int : pystr -> option Z.
  Variable is_float : pystr -> bool.
  Variable to_float : pval -> option pval.
  Variable to_str : pval -> pystr.
  Variable other_true : pystr -> bool.
  Hypothesis HF : floats is_float to_float.
  Notation convert_type := (convert_type uni other_int is_float to_float to_str other_true).
  Notation convert_val := (convert_val uni other_int is_float to_float to_str other_true).
  Notation set_self := (set_self literal_eval uni uninumeric other_int is_float to_float to_str other_true).
  Notation set_fields := (set_fields literal_eval uni uninumeric other_int is_float to_float to_str other_true).
  Notation construct := (construct literal_eval uni uninumeric other_int is_float to_float to_str other_true).

  Lemma type_self c v w : convert_type c v = Ok w -> convert_type c w = Ok w.
  Proof.
    destruct c; cbn [Structures.convert_type]; intros H.
    - exact H || (injection H as <-; reflexivity).
    - destruct v; injection H as <-; reflexivity.
    - destruct v; try discriminate; try (injection H as <-; reflexivity).
      + destruct (int_of_str uni s); [|discriminate]. injection H as <-. reflexivity.
      + destruct (other_int s); [|discriminate]. injection H as <-. reflexivity.
    - assert (HW : forall u, match to_float u with Some x => Ok x | None => Err TypeError end = Ok w ->
        match w with VOther s => if is_float s then Ok w else match to_float w with Some x => Ok x | None => Err TypeError end
                   | _ => match to_float w with Some x => Ok x | None => Err TypeError end end = Ok w).
      { intros u E. destruct (to_float u) as [x|] eqn:Ex; [|discriminate]. injection E as ->. destruct (HF _ _ Ex) as (s & -> & Es).
        now rewrite Es. }
      destruct v; try (now apply HW in H). destruct (is_float s) eqn:Es; [|now apply HW in H]. injection H as <-. now rewrite Es.
    - destruct v; injection H as <-; reflexivity.
    - injection H as <-; reflexivity.
    - injection H as <-; reflexivity.
  Qed.
  Lemma val_self f v w : convert_val f v = Ok w -> convert_val f w = Ok w.
  Proof.
    unfold Structures.convert_val. destruct (convert_type (f_class f) v) as [u|] eqn:E; cbn [bind]; [|discriminate].
    intros H. assert (u = w) by (destruct (f_choices f) as [ok|]; [destruct (ok u); [|discriminate]|]; now injection H).
    subst u. rewrite (type_self _ _ _ E). exact H.
  Qed.

  (** What [set_self] stores, it stores again when it is given it. *)
  Lemma set_again f inst kw a : sane_nargs f -> set_self f inst kw = Ok a ->
    (a = inst /\ gd_get streq kw (f_name f) = None) \/ exists o, a = gd_set streq inst (f_name f) o /\
      forall inst' kw', gd_get streq kw' (f_name f) = Some (as_value o) ->
        set_self f inst' kw' = Ok (gd_set streq inst' (f_name f) (Some (as_value o))).
  Proof.
    intros HS H.
    assert (HPL : plain_set uni other_int is_float to_float to_str other_true f inst kw = Ok a ->
      (a = inst /\ gd_get streq kw (f_name f) = None) \/ exists v, a = gd_set streq inst (f_name f) (Some v) /\
        forall inst' kw', gd_get streq kw' (f_name f) = Some v ->
        plain_set uni other_int is_float to_float to_str other_true f inst' kw' = Ok (gd_set streq inst' (f_name f) (Some v))).
    { clear H. unfold plain_set. intros H.
      destruct (match gd_get streq kw (f_name f) with Some v => Some v | None => f_default f end) as [val|] eqn:Ev.
      2:{ left. destruct (gd_get streq kw (f_name f)); [discriminate|]. destruct (f_required f); [discriminate|]. injection H as <-. now split. }
      right. match type of H with bind ?x _ = _ => destruct x as [w|] eqn:Ew; cbn [bind] in H; [|discriminate] end. injection H as <-.
      exists w. split; [reflexivity|]. intros inst' kw' Ek. rewrite Ek.
      enough (X : match nargs_of f with
                  | None => convert_val f w
                  | Some n => do l <- mapM (convert_val f) (listify w);
                       match n with
                       | NNum k => if Z.of_nat (length l) <? k then Err TypeError else Ok (VList (slice_to l k))
                       | _ => Ok (VList l)
                       end
                  end = Ok w) by (rewrite X; reflexivity).
      destruct (nargs_of f) as [n|] eqn:En; [|now apply val_self in Ew].
      destruct (mapM (convert_val f) (listify val)) as [l|] eqn:El; cbn [bind] in Ew; [|discriminate].
      apply (mapM_self _ _ _ (val_self f)) in El.
      destruct n as [| | |k]; try (injection Ew as <-; cbn [listify]; rewrite El; reflexivity).
      assert (Hk : 0 <= k).
      { apply HS. revert En. unfold nargs_of. destruct (f_nargs f) as [[| | |[| |]]|]; congruence. }
      destruct (Z.of_nat (length l) <? k) eqn:Elt; [discriminate|]. injection Ew as <-. cbn [listify]. apply Z.ltb_ge in Elt.
      assert (ES : forall m : list pval, Z.of_nat (length m) >= k -> slice_to m k = firstn (Z.to_nat k) m).
      { intros m Hm. unfold slice_to, slice_start. destruct (k <? 0) eqn:E0; [apply Z.ltb_lt in E0; lia|]. f_equal. lia. }
      rewrite ES by lia. rewrite (mapM_firstn _ _ _ (Z.to_nat k) El). cbn [bind].
      rewrite firstn_length_le by lia. rewrite Z2Nat.id by lia. rewrite Z.ltb_irrefl. rewrite ES by (rewrite firstn_length_le; lia).
      now rewrite firstn_firstn, Nat.min_id. }
    assert (HPL' : (forall inst kw, set_self f inst kw = plain_set uni other_int is_float to_float to_str other_true f inst kw) ->
      (a = inst /\ gd_get streq kw (f_name f) = None) \/ exists o, a = gd_set streq inst (f_name f) o /\
        forall inst' kw', gd_get streq kw' (f_name f) = Some (as_value o) ->
          set_self f inst' kw' = Ok (gd_set streq inst' (f_name f) (Some (as_value o)))).
    { intros HX. rewrite HX in H. destruct (HPL H) as [L|(v & E & HV)]; [now left|]. right. exists (Some v). split; [exact E|].
      cbn [as_value]. intros inst' kw' Ek. rewrite HX. now apply HV. }
    assert (HC : f_class f = CList \/ f_class f = CKeyed \/ (f_class f <> CList /\ f_class f <> CKeyed)).
    { destruct (f_class f); try (right; right; split; discriminate); [now left|right; now left]. }
    destruct HC as [HC|[HC|[HC1 HC2]]].
    - unfold Structures.set_self in *. rewrite HC in *. unfold list_set_self in *.
      destruct (match gd_get streq kw (f_name f) with Some v => Some v | None => f_default f end) as [val|] eqn:Ev.
      + right. destruct val as [|b|n|s|s|l|d].
        4:{ match type of H with bind ?x _ = _ => destruct x as [w|] eqn:Ew; cbn [bind] in H; [|discriminate] end. injection H as <-.
            exists (Some w). split; [reflexivity|]. cbn [as_value]. intros inst' kw' Ek. rewrite Ek.
            assert (EL : exists l, w = VList l).
            { revert Ew. cbn [field_de_string]. destruct (de_string_noeval _ _ _ s) as [u|]; cbn [bind]; [|discriminate].
              destruct (mapM _ _) as [l|]; cbn [bind]; [|discriminate]. intros E. injection E as <-. eauto. }
            destruct EL as (l & ->). reflexivity. }
        all: injection H as <-; eexists; (split; [reflexivity|]); cbn [as_value listify]; intros inst' kw' Ek; rewrite Ek; reflexivity.
      + destruct (f_required f); [discriminate|]. injection H as <-. right. eexists. split; [reflexivity|]. cbn [as_value].
        intros inst' kw' Ek. rewrite Ek. reflexivity.
    - unfold Structures.set_self in *. rewrite HC in *. unfold keyed_set_self in *.
      destruct (match gd_get streq kw (f_name f) with Some v => Some v | None => f_default f end) as [val|] eqn:Ev.
      + right. match type of H with bind ?x _ = _ => destruct x as [w|] eqn:Ew; cbn [bind] in H; [|discriminate] end. injection H as <-.
        exists (Some w). split; [reflexivity|]. cbn [as_value]. intros inst' kw' Ek. rewrite Ek.
        destruct val as [|b|n|s|s|l|d].
        4:{ destruct (split_params literal_eval uni uninumeric s) as [d|]; cbn [bind] in Ew; [|discriminate]. injection Ew as <-. reflexivity. }
        5:{ destruct (mapM _ l) as [ss|] eqn:Em.
            - destruct (split_params literal_eval uni uninumeric (join [underscore] ss)) as [d|]; cbn [bind] in Ew; [|discriminate].
              injection Ew as <-. reflexivity.
            - injection Ew as <-. rewrite Em. reflexivity. }
        all: injection Ew as <-; reflexivity.
      + destruct (f_required f); [discriminate|]. injection H as <-. right. eexists. split; [reflexivity|]. cbn [as_value].
        intros inst' kw' Ek. rewrite Ek. reflexivity.
    - apply HPL'. intros inst0 kw0. unfold Structures.set_self. destruct (f_class f); try reflexivity; contradiction.
  Qed.

  Definition again (f : field) (o : option pval) : Prop :=
    forall inst' kw', gd_get streq kw' (f_name f) = Some (as_value o) ->
      set_self f inst' kw' = Ok (gd_set streq inst' (f_name f) (Some (as_value o))).

  Lemma stored fs kw : (forall f, In f fs -> sane_nargs f) -> NoDup (map f_name fs) -> forall inst a, set_fields fs kw inst = Ok a ->
    (forall n, ~ In n (map f_name fs) -> gd_get streq a n = gd_get streq inst n) /\
    forall f o, In f fs -> gd_get streq inst (f_name f) = None -> gd_get streq a (f_name f) = Some o -> again f o.
  Proof.
    intros HS. induction fs as [|g fs IH]; intros HN inst a E; cbn [Structures.set_fields] in E.
    { injection E as <-. split; [reflexivity|intros f o []]. }
    cbn [map] in HN. inversion HN as [|? ? N1 N2]; subst.
    destruct (set_self g inst kw) as [a1|] eqn:E1; cbn [bind] in E; [|discriminate].
    destruct (IH (fun f H => HS f (or_intror H)) N2 a1 a E) as [I1 I2].
    assert (X : (a1 = inst \/ exists o, a1 = gd_set streq inst (f_name g) o /\ again g o)).
    { destruct (set_again g inst kw a1 (HS g (or_introl eq_refl)) E1) as [[-> _]|(o & -> & H)]; [now left|right; eauto]. }
    assert (X2 : forall n, n <> f_name g -> gd_get streq a1 n = gd_get streq inst n).
    { intros n Hn. destruct X as [->|(o & -> & _)]; [reflexivity|]. rewrite (get_set streq streq_spec), streq_ne by congruence. reflexivity. }
    split.
    - intros n Hn. rewrite I1 by (intros H; apply Hn; now right). apply X2. intros ->. apply Hn. now left.
    - intros f o [<-|Hf] E0 Ea.
      + rewrite I1 in Ea by exact N1. destruct X as [->|(o' & -> & H)]; [congruence|].
        rewrite (get_set streq streq_spec), streq_refl in Ea. injection Ea as <-. exact H.
      + apply (I2 f o Hf); [|exact Ea]. rewrite X2; [exact E0|]. intros Eq. apply N1. rewrite <- Eq. now apply in_map.
  Qed.

  Lemma set_missing f inst kw : gd_get streq kw (f_name f) = None -> f_default f = None -> f_required f = false ->
    exists a, set_self f inst kw = Ok a /\ forall n, n <> f_name f -> gd_get streq a n = gd_get streq inst n.
  Proof.
    intros E1 E2 E3. assert (HX : forall o n, n <> f_name f -> gd_get streq (gd_set streq inst (f_name f) o) n = gd_get streq inst n).
    { intros o n Hn. rewrite (get_set streq streq_spec), streq_ne by congruence. reflexivity. }
    unfold Structures.set_self, list_set_self, keyed_set_self, plain_set. rewrite E1, E2, E3.
    destruct (f_class f); eexists; (split; [reflexivity|]); try apply HX; reflexivity.
  Qed.

  Lemma set_from fs (r : list (pystr * pval)) (given : list field) : NoDup (map f_name fs) ->
    (forall f, In f fs -> (In f given /\ exists o, gd_get streq r (f_name f) = Some (as_value o) /\ again f o) \/
      (gd_get streq r (f_name f) = None /\ f_default f = None /\ f_required f = false)) ->
    forall inst, exists b, set_fields fs r inst = Ok b /\
      (forall n, ~ In n (map f_name fs) -> gd_get streq b n = gd_get streq inst n) /\
      (forall f v, In f fs -> gd_get streq r (f_name f) = Some v -> gd_get streq b (f_name f) = Some (Some v)).
  Proof.
    intros HN HG. induction fs as [|g fs IH]; intros inst.
    { exists inst. split; [reflexivity|]. split; [reflexivity|]. intros f v []. }
    cbn [map] in HN. inversion HN as [|? ? N1 N2]; subst. cbn [Structures.set_fields].
    assert (HX : exists a, set_self g inst r = Ok a /\ (forall n, n <> f_name g -> gd_get streq a n = gd_get streq inst n) /\
      forall v, gd_get streq r (f_name g) = Some v -> gd_get streq a (f_name g) = Some (Some v)).
    { destruct (HG g (or_introl eq_refl)) as [(_ & o & E & HA)|(E1 & E2 & E3)].
      - eexists. split; [apply (HA inst r E)|]. split.
        + intros n Hn. rewrite (get_set streq streq_spec), streq_ne by congruence. reflexivity.
        + intros v Ev. rewrite E in Ev. injection Ev as <-. now rewrite (get_set streq streq_spec), streq_refl.
      - destruct (set_missing g inst r E1 E2 E3) as (a & A1 & A2). exists a. split; [exact A1|]. split; [exact A2|]. congruence. }
    destruct HX as (a & A1 & A2 & A3). rewrite A1. cbn [bind].
    destruct (IH N2 (fun f H => HG f (or_intror H)) a) as (b & B1 & B2 & B3). exists b. split; [exact B1|]. split.
    - intros n Hn. rewrite B2 by (intros H; apply Hn; now right). apply A2. intros ->. apply Hn. now left.
    - intros f v [<-|Hf] Ev; [|now apply B3]. rewrite B2 by exact N1. now apply A3.
  Qed.

  (** ** The records *)
  Lemma items_get fs a r : NoDup (map f_name fs) -> items fs a = Ok r ->
    map fst r = map f_name fs /\ forall f, In f fs -> exists o, gd_get streq a (f_name f) = Some o /\ gd_get streq r (f_name f) = Some (as_value o).
  Proof.
    unfold items. revert r. induction fs as [|g fs IH]; intros r HN E; cbn [mapM] in E.
    { injection E as <-. split; [reflexivity|intros f []]. }
    cbn [map] in HN. inversion HN as [|? ? N1 N2]; subst.
    unfold attribute in E at 1. destruct (gd_get streq a (f_name g)) as [o|] eqn:Eo; [|discriminate].
    assert (EO : match o with Some v => Ok v | None => Ok the_empty end = Ok (as_value o)) by now destruct o.
    rewrite EO in E. cbn [bind] in E.
    destruct (mapM (fun v => do val <- attribute a (f_name v); Ok (f_name v, val)) fs) as [r'|]; cbn [bind] in E; [|discriminate].
    injection E as <-. destruct (IH r' N2 eq_refl) as [K1 K2]. split; [cbn [map fst]; now rewrite K1|].
    intros f [<-|Hf].
    - exists o. split; [exact Eo|]. cbn [gd_get]. now rewrite streq_refl.
    - destruct (K2 f Hf) as (o' & O1 & O2). exists o'. split; [exact O1|]. cbn [gd_get]. rewrite streq_ne; [exact O2|].
      intros Eq. apply N1. rewrite Eq. now apply in_map.
  Qed.

  Lemma no_keys (r : list (pystr * pval)) inh a : (forall n, In n inh -> gd_get streq r n = None) -> set_inherited inh r a = a.
  Proof.
    unfold set_inherited. revert a. induction inh as [|n inh IH]; intros a H; [reflexivity|]. cbn [fold_left].
    rewrite (H n (or_introl eq_refl)). apply IH. intros m Hm. apply H. now right.
  Qed.

  Lemma has_as a n o : gd_get streq a n = Some o -> forall v, has a n v <-> v = as_value o.
  Proof.
    intros E v. unfold has. rewrite E. destruct o as [w|]; cbn [as_value]; split.
    - intros [H|[H _]]; congruence.
    - intros ->. now left.
    - intros [H|[_ H]]; [discriminate|exact H].
    - intros ->. now right.
  Qed.

  Theorem items_rebuilt fs inherited kw a r : (forall f, In f fs -> sane_nargs f) -> NoDup (map f_name fs) ->
    (forall n, In n inherited -> ~ In n (map f_name fs)) ->
    construct fs inherited kw = Ok a -> items fs a = Ok r ->
    map fst r = map f_name fs /\ exists b, construct fs inherited r = Ok b /\ forall f v, In f fs -> has b (f_name f) v <-> has a (f_name f) v.
  Proof.
    intros HS HN HI E Er. unfold Structures.construct in E. destruct (set_fields fs kw []) as [a0|] eqn:E0; cbn [bind] in E; [|discriminate].
    injection E as <-. destruct (items_get fs _ r HN Er) as [K1 K2]. split; [exact K1|].
    assert (G : forall f, In f fs -> gd_get streq (set_inherited inherited kw a0) (f_name f) = gd_get streq a0 (f_name f)).
    { intros f Hf. apply inherited_other. intros H. apply (HI _ H). now apply in_map. }
    destruct (stored fs kw HS HN [] a0 E0) as [_ ST].
    destruct (set_from fs r fs HN) with (inst := @nil (pystr * option pval)) as (b & B1 & B2 & B3).
    { intros f Hf. left. split; [exact Hf|]. destruct (K2 f Hf) as (o & O1 & O2). exists o. split; [exact O2|].
      apply (ST f o Hf eq_refl). rewrite <- G by exact Hf. exact O1. }
    exists b. unfold Structures.construct. rewrite B1. cbn [bind]. split.
    - f_equal. apply no_keys. intros n Hn. apply (DictFacts.get_none streq streq_spec). rewrite K1. now apply HI.
    - intros f v Hf. destruct (K2 f Hf) as (o & O1 & O2). rewrite (has_as _ _ _ O1 v).
      rewrite (has_as b (f_name f) (Some (as_value o))) by now apply B3. reflexivity.
  Qed.

  Definition record_loop (coll : bool) (inst : attrs) := fix go (l : list field) (d : list (pystr * pval)) : result (list (pystr * pval)) :=
     match l with
     | [] => Ok d
     | v :: l' =>
         do val <- attribute inst (f_name v);
         do val <- (if coll && (match f_class v with CList | CKeyed => true | _ => false end)
                    then do s <- stringify v val true; Ok (VStr s) else Ok val);
         go l' (gd_set streq d (f_name v) val)
     end.
  Lemma record_get inst : forall l d r, NoDup (map f_name l) -> record_loop false inst l d = Ok r ->
    (forall n, ~ In n (map f_name l) -> gd_get streq r n = gd_get streq d n) /\
    forall f, In f l -> exists o, gd_get streq inst (f_name f) = Some o /\ gd_get streq r (f_name f) = Some (as_value o).
  Proof.
    induction l as [|g l IH]; intros d r HN E; cbn [record_loop] in E.
    { injection E as <-. split; [reflexivity|intros f []]. }
    cbn [map] in HN. inversion HN as [|? ? N1 N2]; subst.
    unfold attribute in E at 1. destruct (gd_get streq inst (f_name g)) as [o|] eqn:Eo; [|discriminate].
    assert (EO : match o with Some v => Ok v | None => Ok the_empty end = Ok (as_value o)) by now destruct o.
    rewrite EO in E. cbn [bind andb] in E. destruct (IH _ _ N2 E) as [I1 I2]. split.
    - intros n Hn. rewrite I1 by (intros H; apply Hn; now right). rewrite (get_set streq streq_spec), streq_ne; [reflexivity|].
      intros Eq. apply Hn. now left.
    - intros f [<-|Hf]; [|now apply I2]. exists o. split; [exact Eo|]. rewrite I1 by exact N1. now rewrite (get_set streq streq_spec), streq_refl.
  Qed.

  Lemma flat_params fs : base_params (map MField fs) = Ok (filter (fun f => negb (f_transient f)) fs).
  Proof.
    induction fs as [|f fs IH]; [reflexivity|]. cbn [map base_params member_params filter]. cbn [bind]. rewrite IH. cbn [bind].
    now destruct (f_transient f).
  Qed.

  (** The record of a flat class has its fields that are not transient; without default, the others are not needed. *)
  Theorem record_rebuilt fs inherited kw a base r : (forall f, In f fs -> sane_nargs f) -> NoDup (map f_name fs) ->
    (forall n, In n inherited -> ~ In n (map f_name fs)) ->
    (forall f, In f fs -> f_transient f = true -> f_default f = None /\ f_required f = false) ->
    construct fs inherited kw = Ok a -> base_params (map MField fs) = Ok base -> get_flat_record base false a = Ok r ->
    (forall n, gd_get streq r n <> None <-> exists f, In f fs /\ shown f /\ f_name f = n) /\
    exists b, construct fs inherited r = Ok b /\ forall f v, In f fs -> shown f -> has b (f_name f) v <-> has a (f_name f) v.
  Proof.
    intros HS HN HI HT E Eb Er. rewrite flat_params in Eb. injection Eb as <-.
    unfold Structures.construct in E. destruct (set_fields fs kw []) as [a0|] eqn:E0; cbn [bind] in E; [|discriminate].
    injection E as <-. set (base := filter (fun f => negb (f_transient f)) fs) in *.
    assert (HB : forall f, In f base <-> In f fs /\ shown f).
    { intros f. unfold base, shown. rewrite filter_In, negb_true_iff. reflexivity. }
    assert (HNB : NoDup (map f_name base)).
    { unfold base. clear -HN. induction fs as [|f fs IH]; [constructor|]. cbn [map filter] in *. inversion HN as [|? ? N1 N2]; subst.
      destruct (negb (f_transient f)); [|now apply IH]. cbn [map]. constructor; [|now apply IH].
      intros H. apply N1. apply in_map_iff in H as (g & <- & H). apply filter_In in H as [H _]. now apply in_map. }
    assert (INJ : forall f g, In f fs -> In g fs -> f_name f = f_name g -> f = g).
    { clear -HN. induction fs as [|h fs IH]; intros f g Hf Hg Eq; [destruct Hf|]. cbn [map] in HN. inversion HN as [|? ? N1 N2]; subst.
      destruct Hf as [<-|Hf], Hg as [<-|Hg]; try reflexivity; [| |now apply IH]; exfalso; apply N1.
      - rewrite Eq. now apply in_map.
      - rewrite <- Eq. now apply in_map. }
    destruct (record_get _ base [] r HNB Er) as [K0 K2].
    assert (KN : forall n, gd_get streq r n <> None <-> exists f, In f fs /\ shown f /\ f_name f = n).
    { intros n. split.
      - intros H. destruct (in_dec (list_eq_dec Z.eq_dec) n (map f_name base)) as [Hin|Hin].
        + apply in_map_iff in Hin as (f & <- & Hf). apply HB in Hf as [F1 F2]. eauto.
        + exfalso. apply H. now rewrite (K0 n Hin).
      - intros (f & F1 & F2 & <-). destruct (K2 f) as (o & _ & O2); [apply HB; tauto|]. congruence. }
    split; [exact KN|].
    assert (G : forall f, In f fs -> gd_get streq (set_inherited inherited kw a0) (f_name f) = gd_get streq a0 (f_name f)).
    { intros f Hf. apply inherited_other. intros H. apply (HI _ H). now apply in_map. }
    destruct (stored fs kw HS HN [] a0 E0) as [_ ST].
    destruct (set_from fs r fs HN) with (inst := @nil (pystr * option pval)) as (b & B1 & B2 & B3).
    { intros f Hf. destruct (f_transient f) eqn:Et.
      - right. destruct (HT f Hf Et) as [T1 T2]. split; [|now split]. apply K0. intros H. apply in_map_iff in H as (g & Eg & H).
        apply HB in H as [H1 H2]. rewrite (INJ g f H1 Hf Eg) in H2. unfold shown in H2. congruence.
      - left. split; [exact Hf|]. destruct (K2 f) as (o & O1 & O2); [apply HB; now split|]. exists o. split; [exact O2|].
        apply (ST f o Hf eq_refl). rewrite <- G by exact Hf. exact O1. }
    exists b. unfold Structures.construct. rewrite B1. cbn [bind]. split.
    - f_equal. apply no_keys. intros n Hn. destruct (gd_get streq r n) eqn:En; [|reflexivity]. exfalso.
      destruct (proj1 (KN n)) as (f & F1 & _ & F3); [congruence|]. apply (HI n Hn). rewrite <- F3. now apply in_map.
    - intros f v Hf Hs. destruct (K2 f) as (o & O1 & O2); [apply HB; now split|]. rewrite (has_as _ _ _ O1 v).
      rewrite (has_as b (f_name f) (Some (as_value o))) by now apply B3. reflexivity.
  Qed.
End build.

(** ** What goes wrong *)
(** without an attribute for each field, there is no record *)
Theorem record_lacks base coll inst f : In f base -> lacks inst (f_name f) -> forall r, get_flat_record base coll inst <> Ok r.
Proof.
  intros Hf HL r. unfold get_flat_record. change (record_loop coll inst base [] <> Ok r). generalize (@nil (pystr * pval)).
  revert Hf. induction base as [|g base IH]; intros Hf d; [destruct Hf|]. cbn [record_loop].
  destruct (attribute inst (f_name g)) as [v|] eqn:E; cbn [bind]; [|discriminate].
  destruct Hf as [->|Hf]; [apply attribute_lacks in HL; congruence|].
  destruct (if coll && _ then _ else _) as [w|]; cbn [bind]; [|discriminate]. now apply IH.
Qed.
Theorem items_lack fs inst f : In f fs -> lacks inst (f_name f) -> forall r, items fs inst <> Ok r.
Proof.
  intros Hf HL r. unfold items. revert Hf r. induction fs as [|g fs IH]; intros Hf r; [destruct Hf|]. cbn [mapM].
  destruct (attribute inst (f_name g)) as [v|] eqn:E; cbn [bind]; [|discriminate].
  destruct Hf as [->|Hf]; [apply attribute_lacks in HL; congruence|].
  destruct (mapM _ fs) as [x|] eqn:Em; cbn [bind]; [|discriminate]. exfalso. exact (IH Hf x eq_refl).
Qed.

(** the fields of a class inside are looked for in the outer instance *)
Lemma inner_params members base n req k p t ms inh f : base_params members = Ok base ->
  In (MStruct n req k p t (Some (ms, inh))) members -> In (MField f) ms -> f_transient f = false -> In f base.
Proof.
  assert (HG : forall l a, base_params l = Ok a -> In (MField f) l -> f_transient f = false -> In f a).
  { induction l as [|m l IH]; intros a E Hf Ht; [destruct Hf|]. cbn [base_params] in E.
    destruct (member_params m) as [x|] eqn:Em; cbn [bind] in E; [|discriminate].
    destruct (base_params l) as [y|]; cbn [bind] in E; [|discriminate]. injection E as <-. apply in_app_iff. destruct Hf as [->|Hf].
    - left. cbn [member_params] in Em. rewrite Ht in Em. injection Em as <-. now left.
    - right. now apply IH. }
  revert base. induction members as [|m l IH]; intros base E Hs Hf Ht; [destruct Hs|]. cbn [base_params] in E.
  destruct (member_params m) as [x|] eqn:Em; cbn [bind] in E; [|discriminate].
  destruct (base_params l) as [y|]; cbn [bind] in E; [|discriminate]. injection E as <-. apply in_app_iff. destruct Hs as [->|Hs].
  - left. apply (HG ms x); [|exact Hf|exact Ht]. rewrite <- Em. cbn [member_params].
    clear. induction ms as [|q ms IH]; [reflexivity|]. cbn [base_params]. now rewrite IH.
  - right. now apply IH.
Qed.
Theorem nested_record members base coll a n req k p t ms inh f : base_params members = Ok base ->
  In (MStruct n req k p t (Some (ms, inh))) members -> In (MField f) ms -> f_transient f = false ->
  gd_get streq a (f_name f) = None -> forall r, get_flat_record base coll (own_attrs a) <> Ok r.
Proof.
  intros Eb Hs Hf Ht E r. apply (record_lacks base coll (own_attrs a) f).
  - eapply inner_params; eassumption.
  - unfold lacks. apply (DictFacts.get_none streq streq_spec). intros H. apply in_map_iff in H as ([q v] & Eq & H). cbn [fst] in Eq. subst q.
    apply in_flat_map in H as ([q s] & H1 & H2). cbn [snd fst] in H2. destruct s; [|destruct H2]. destruct H2 as [X|[]]. injection X as -> ->.
    apply (DictFacts.get_none streq streq_spec) in E. apply E. apply in_map_iff. exists (f_name f, SVal v). now split.
Qed.

(** ** What is in a record *)
Lemma record_entry coll f v w :
  (if coll && (match f_class f with CList | CKeyed => true | _ => false end) then do s <- stringify f v true; Ok (VStr s) else Ok v) = Ok w <->
  recorded coll f v w.
Proof.
  unfold recorded, stringify.
  destruct (coll && match f_class f with CList | CKeyed => true | _ => false end) eqn:E.
  - apply andb_true_iff in E as [-> E]. assert (C : f_class f = CList \/ f_class f = CKeyed) by (destruct (f_class f); auto; discriminate).
    split.
    + intros H. left. split; [reflexivity|]. split; [exact C|]. destruct (field_text v) as [u|] eqn:Eu; cbn [bind] in H; [|discriminate].
      rewrite andb_false_r in H. cbn [bind] in H. injection H as <-. apply field_text_iff in Eu. eauto.
    + intros [(_ & _ & u & Hu & ->)|[H _]]; [|exfalso; auto]. apply field_text_iff in Hu. rewrite Hu. cbn [bind]. now rewrite andb_false_r.
  - assert (C : ~ (coll = true /\ (f_class f = CList \/ f_class f = CKeyed))).
    { intros [-> [C|C]]; rewrite C in E; discriminate. }
    split.
    + intros H. injection H as <-. now right.
    + intros [(-> & C' & _)|[_ ->]]; [exfalso; auto|reflexivity].
Qed.
Theorem record_values base coll inst r : NoDup (map f_name base) -> get_flat_record base coll inst = Ok r ->
  forall n w, gd_get streq r n = Some w <-> exists f v, In f base /\ f_name f = n /\ has inst n v /\ recorded coll f v w.
Proof.
  intros HN E. change (record_loop coll inst base [] = Ok r) in E.
  assert (HG : forall l d r, NoDup (map f_name l) -> record_loop coll inst l d = Ok r ->
    (forall n, ~ In n (map f_name l) -> gd_get streq r n = gd_get streq d n) /\
    forall f, In f l -> exists v w, has inst (f_name f) v /\ recorded coll f v w /\ gd_get streq r (f_name f) = Some w).
  { clear. induction l as [|g l IH]; intros d r HN E; cbn [record_loop] in E.
    { injection E as <-. split; [reflexivity|intros f []]. }
    cbn [map] in HN. inversion HN as [|? ? N1 N2]; subst.
    destruct (attribute inst (f_name g)) as [v|] eqn:Ev; cbn [bind] in E; [|discriminate].
    destruct (if coll && _ then _ else _) as [w|] eqn:Ew in E; cbn [bind] in E; [|discriminate].
    destruct (IH _ _ N2 E) as [I1 I2]. split.
    - intros n Hn. rewrite I1 by (intros H; apply Hn; now right). rewrite (get_set streq streq_spec), streq_ne; [reflexivity|].
      intros Eq. apply Hn. now left.
    - intros f [<-|Hf]; [|now apply I2]. exists v, w. split; [now apply attribute_has|]. split; [now apply record_entry|].
      rewrite I1 by exact N1. now rewrite (get_set streq streq_spec), streq_refl. }
  destruct (HG _ _ _ HN E) as [H1 H2]. intros n w. split.
  - intros Hw. destruct (in_dec (list_eq_dec Z.eq_dec) n (map f_name base)) as [Hin|Hin].
    + apply in_map_iff in Hin as (f & <- & Hf). destruct (H2 f Hf) as (v & w' & Hv & Hr & Hg). exists f, v.
      assert (w' = w) by congruence. subst w'. tauto.
    + rewrite (H1 n Hin) in Hw. discriminate.
  - intros (f & v & Hf & <- & Hv & Hr). destruct (H2 f Hf) as (v' & w' & Hv' & Hr' & Hg). rewrite Hg. f_equal.
    apply attribute_has in Hv, Hv'. assert (v' = v) by congruence. subst v'.
    apply record_entry in Hr, Hr'. congruence.
Qed.
