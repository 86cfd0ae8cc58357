(** Entering an Experiment. *)
From Verif Require Import Proofs.DictFacts Proofs.PyFacts Proofs.ParamsFacts Proofs.StrFacts Proofs.PathFacts Proofs.StructuresFacts Proofs.StructuresRead
  Proofs.StructuresTop Proofs.NestedFacts Proofs.NestedRead Proofs.NestedTop Proofs.RecordsFacts Proofs.StructLogsFacts Proofs.StructLogsExt
  Spec.ExperimentsSpec.
Open Scope Z_scope.

(** the same attribute in two instances *)
Definition same_at (a b : sattrs) (x : pystr) : Prop :=
  gd_get streq b x = gd_get streq a x /\ gd_get streq (own_attrs b) x = gd_get streq (own_attrs a) x.
Lemma same_at_refl a x : same_at a a x.
Proof. now split. Qed.
Lemma same_at_trans a b c x : same_at a b x -> same_at b c x -> same_at a c x.
Proof. intros [H1 H2] [H3 H4]. split; congruence. Qed.
Lemma own_set_inst (x : sattrs) n u m : n <> m -> gd_get streq (own_attrs (gd_set streq x n (SInst u))) m = gd_get streq (own_attrs x) m.
Proof.
  intros Hn. induction x as [|[k y] x IH]; cbn [gd_set]; [reflexivity|]. destruct (streq k n) eqn:E.
  - apply streq_spec in E. subst k. destruct y as [o|y]; cbn; [|reflexivity]. rewrite streq_ne by exact Hn. reflexivity.
  - destruct y as [o|y]; cbn; [|exact IH]. destruct (streq k m); [reflexivity|exact IH].
Qed.
Lemma own_over_inst (x : sattrs) n u v : gd_get streq x n = Some (SInst v) -> own_attrs (gd_set streq x n (SInst u)) = own_attrs x.
Proof.
  induction x as [|[k y] x IH]; cbn [gd_set gd_get]; [discriminate|]. destruct (streq k n) eqn:E; intros H.
  - injection H as ->. reflexivity.
  - specialize (IH H). destruct y; cbn; [|exact IH]. unfold own_attrs in IH. now rewrite IH.
Qed.
Lemma same_at_set a n v x : n <> x -> same_at a (gd_set streq a n v) x.
Proof.
  intros H. split; [now rewrite (get_set streq streq_spec), streq_ne|]. destruct v as [o|s]; [now rewrite own_set, streq_ne|now apply own_set_inst].
Qed.
Lemma set_some (a : sattrs) n v x : gd_get streq a x <> None -> gd_get streq (gd_set streq a n v) x <> None.
Proof. rewrite (get_set streq streq_spec). now destruct (streq n x). Qed.

Lemma inherit_ok inh bp inst : forall self, (forall x, In x inh -> x = lit "base_dir" \/ gd_get streq inst x <> None) ->
  exists z, inherit inh bp inst self = (z, Ok tt) /\ (forall y, ~ In y inh -> same_at self z y) /\
    (forall y, In y inh \/ gd_get streq self y <> None -> gd_get streq z y <> None) /\
    ((In (lit "base_dir") inh \/ get_value self (lit "base_dir") = Some (VStr bp)) -> get_value z (lit "base_dir") = Some (VStr bp)).
Proof.
  induction inh as [|n inh IH]; intros self H.
  { exists self. split; [reflexivity|]. split; [intros; apply same_at_refl|]. split; [intros y [[]|Hy]; exact Hy|intros [[]|Hy]; exact Hy]. }
  cbn [inherit].
  assert (HV : exists v, (if streq n (lit "base_dir") then Some (SVal (Some (VStr bp))) else gd_get streq inst n) = Some v /\
    (n = lit "base_dir" -> v = SVal (Some (VStr bp)))).
  { destruct (streq n (lit "base_dir")) eqn:E; [eexists; split; [reflexivity|reflexivity]|].
    destruct (H n (or_introl eq_refl)) as [->|Hn]; [rewrite streq_refl in E; discriminate|].
    destruct (gd_get streq inst n) as [v|]; [|congruence]. exists v. split; [reflexivity|]. intros ->. rewrite streq_refl in E. discriminate. }
  destruct HV as (v & EV & HV). rewrite EV.
  destruct (IH (gd_set streq self n v)) as (z & Z1 & Z2 & Z3 & Z4). { intros x Hx. apply H. now right. }
  exists z. split; [exact Z1|]. split; [|split].
  - intros y Hy. eapply same_at_trans; [|apply Z2; intros Hi; apply Hy; now right]. apply same_at_set. intros ->. apply Hy. now left.
  - intros y [[<-|Hy]|Hy]; apply Z3; [right|now left|right].
    + now rewrite (get_set streq streq_spec), streq_refl.
    + now apply set_some.
  - intros HB. apply Z4. destruct (list_eq_dec Z.eq_dec n (lit "base_dir")) as [->|Hn].
    + right. rewrite (HV eq_refl). unfold get_value, get_attr. now rewrite own_set, streq_refl.
    + destruct HB as [[HB|HB]|HB]; [congruence|now left|]. right. unfold get_value, get_attr in *.
      destruct (same_at_set self n v (lit "base_dir") Hn) as [_ ->]. exact HB.
Qed.

Lemma log_path_ok ms z bp e : get_value z (lit "base_dir") = Some (VStr bp) -> nested_string ms z = Ok e -> log_path ms z = Ok (path_join2 bp e).
Proof. intros H1 H2. apply value_attr in H1. unfold log_path. rewrite H1. cbn [bind]. rewrite H2. reflexivity. Qed.
Lemma string_nonpos ms a d : nested_string ms a = Ok d -> exists s, get_nonpos_string (own_attrs a) (own_fields ms) = Ok s.
Proof.
  unfold nested_string, string_of_parts. intros H. destruct (member_strings ms a); cbn [bind] in H; [|discriminate].
  destruct (get_nonpos_string (own_attrs a) (own_fields ms)) as [s|]; cbn [bind] in H; [eauto|discriminate].
Qed.

Lemma nodup_name members : NoDup (map member_name members) -> forall x y, In x members -> In y members -> member_name x = member_name y -> x = y.
Proof.
  induction members as [|m l IH]; intros HN x y Hx Hy E; [destruct Hx|]. cbn [map] in HN. inversion HN as [|? ? N1 N2]; subst.
  destruct Hx as [->|Hx], Hy as [->|Hy]; [reflexivity| | |now apply IH].
  - exfalso. apply N1. rewrite E. now apply in_map.
  - exfalso. apply N1. rewrite <- E. now apply in_map.
Qed.

Section enter.
  Variable experiment : list member -> list pystr -> bool.
  Notation enter_member := (enter_member experiment).
  Notation enter_members := (enter_members experiment).
  Notation enter_exp := (enter_exp experiment).
  Scheme ready_mut := Induction for ready Sort Prop
    with ready_member_mut := Induction for ready_member Sort Prop.

  Lemma enter_member_struct n req k p t ms inh a bp child : gd_get streq a n = Some (SInst child) ->
    enter_member (MStruct n req k p t (Some (ms, inh))) a bp =
    let bp := if k then normpath (path_join2 bp n) else bp in
    let (child, r) := inherit inh bp a child in
    match r with
    | Err e => (gd_set streq a n (SInst child), Err e)
    | Ok _ =>
        let (child, r) := if experiment ms inh then enter_exp ms child else (child, Ok tt) in
        let a := gd_set streq a n (SInst child) in
        match r with
        | Ok _ | Err AttributeError =>
            match log_path ms child with
            | Err e => (a, Err e)
            | Ok p => (match gd_get streq (own_attrs child) (lit "output_dim") with
                       | Some v => gd_set streq a (lit "input_dim") (SVal v)
                       | None => a
                       end, Ok p)
            end
        | Err e => (a, Err e)
        end
    end.
  Proof.
    intros E. cbn [Experiments.enter_member]. rewrite E. cbv zeta.
    replace ((fix go (l : list member) (a0 : sattrs) (base_path : pystr) {struct l} : sattrs * result pystr :=
      match l with
      | [] => (a0, Ok base_path)
      | x :: l' => let (a1, r) := enter_member x a0 base_path in match r with Ok base_path0 => go l' a1 base_path0 | Err e => (a1, Err e) end
      end) ms) with (enter_members ms).
    - reflexivity.
    - reflexivity.
  Qed.

  Definition struct_name (members : list member) (x : pystr) : Prop := exists req k p t con, In (MStruct x req k p t con) members.

  (** what entering a class does to an instance that has got its inherited attributes *)
  Definition enters (avail : list pystr) (members : list member) (a : sattrs) : Prop :=
    forall a1 d, (forall x, ~ In x avail -> same_at a a1 x) -> (forall x, In x avail -> gd_get streq a1 x <> None) ->
      (forall x, In x avail -> ~ In x (map member_name members)) -> get_value a1 (lit "base_dir") = Some (VStr d) ->
      exists b, enter_exp members a1 = (b, Ok tt) /\ entered experiment members b /\
        (forall x, x <> lit "input_dim" -> ~ struct_name members x -> same_at a1 b x) /\
        (forall m, In m members -> kept_member experiment a1 b m) /\
        nested_string members b = nested_string members a1.
  Definition member_enters (avail : list pystr) (a : sattrs) (m : member) : Prop :=
    match m with
    | MField _ => True
    | MStruct n req k p t con => gd_get streq a n = None \/
        exists ms inh x d, con = Some (ms, inh) /\ gd_get streq a n = Some (SInst x) /\ nested_string ms x = Ok d /\
          In (lit "base_dir") inh /\ (forall y, In y inh -> ~ In y (map member_name ms)) /\
          (forall y, In y inh -> y = lit "base_dir" \/ y = lit "input_dim" \/ In y avail \/ gd_get streq a y <> None) /\
          (experiment ms inh = true -> enters inh ms x /\ ~ In (lit "base_dir") (map member_name ms) /\ ~ In (lit "input_dim") (map member_name ms))
    end.

  Lemma member_name_struct members x : struct_name members x -> In x (map member_name members).
  Proof. intros (req & k & p & t & con & H). apply in_map_iff. eexists. split; [|exact H]. reflexivity. Qed.

  Lemma loop_ok avail a : forall l cur dir, NoDup (map member_name l) ->
    ~ In (lit "base_dir") (map member_name l) -> ~ In (lit "input_dim") (map member_name l) ->
    (forall m, In m l -> member_enters avail a m) -> (forall m, In m l -> gd_get streq cur (member_name m) = gd_get streq a (member_name m)) ->
    (forall x, x = lit "input_dim" \/ In x avail \/ gd_get streq a x <> None -> gd_get streq cur x <> None) ->
    exists b q, enter_members l cur dir = (b, Ok q) /\ walked experiment dir l b /\
      (forall x, x <> lit "input_dim" -> ~ struct_name l x -> same_at cur b x) /\
      (forall m, In m l -> kept_member experiment cur b m /\
         match m with MField _ => True | _ => member_string m b = member_string m cur end) /\
      (forall x, gd_get streq cur x <> None -> gd_get streq b x <> None).
  Proof.
    induction l as [|m l IH]; intros cur dir HN HB HI HM HC HA.
    { exists cur, dir. split; [reflexivity|]. split; [constructor|]. split; [intros; apply same_at_refl|]. split; [intros m []|auto]. }
    cbn [map] in HN, HB, HI. inversion HN as [|? ? N1 N2]; subst.
    assert (HB' : ~ In (lit "base_dir") (map member_name l)) by (intros H; apply HB; now right).
    assert (HI' : ~ In (lit "input_dim") (map member_name l)) by (intros H; apply HI; now right).
    pose proof (HM m (or_introl eq_refl)) as Hm. pose proof (HC m (or_introl eq_refl)) as Cm.
    (** the turn of [m] *)
    assert (TURN : exists cur2 dir2, enter_member m cur dir = (cur2, Ok dir2) /\
      (forall x, x <> lit "input_dim" -> (x <> member_name m \/ gd_get streq a (member_name m) = None \/ exists f, m = MField f) -> same_at cur cur2 x) /\
      (forall x, gd_get streq cur x <> None -> gd_get streq cur2 x <> None) /\
      (forall b, gd_get streq b (member_name m) = gd_get streq cur2 (member_name m) ->
         (walked experiment dir2 l b -> walked experiment dir (m :: l) b) /\
         kept_member experiment cur b m /\ match m with MField _ => True | _ => member_string m b = member_string m cur end)).
    { destruct m as [f|n req k p t con].
      - exists cur, dir. split; [reflexivity|]. split; [intros; apply same_at_refl|]. split; [auto|].
        intros b _. split; [apply WalkedField|]. split; [constructor|exact I].
      - cbn [member_name] in *. destruct Hm as [En|(ms & inh & x & d & -> & Ex & Ed & Hb & Hd & Ha & He)].
        + assert (Ec : gd_get streq cur n = None) by congruence.
          exists cur, dir. split; [cbn [Experiments.enter_member]; now rewrite Ec|].
          split; [intros; apply same_at_refl|]. split; [auto|]. intros b Eb. assert (Eb' : gd_get streq b n = None) by congruence.
          split; [now apply WalkedUnset|]. split; [now apply KeptUnset|]. cbn [member_string]. now rewrite Eb', Ec.
        + assert (Ec : gd_get streq cur n = Some (SInst x)) by congruence.
          rewrite (enter_member_struct _ _ _ _ _ _ _ _ _ _ Ec). cbv zeta. set (here := if k then normpath (path_join2 dir n) else dir).
          destruct (inherit_ok inh here cur x) as (z & Z1 & Z2 & Z3 & Z4).
          { intros y Hy. destruct (Ha y Hy) as [H|H]; [now left|]. right. now apply HA. }
          rewrite Z1. assert (Zb : get_value z (lit "base_dir") = Some (VStr here)) by (apply Z4; now left).
          assert (Zs : nested_string ms z = Ok d).
          { rewrite <- Ed. apply string_ext. intros y Hy. apply Z2. intros H. exact (Hd y H Hy). }
          (** the child after its turn *)
          assert (CH : exists w, (if experiment ms inh then enter_exp ms z else (z, Ok tt)) = (w, Ok tt) /\
            get_value w (lit "base_dir") = Some (VStr here) /\ nested_string ms w = Ok d /\
            (experiment ms inh = true -> entered experiment ms w /\ kept_all experiment ms inh x w) /\
            (experiment ms inh = false -> forall y, ~ In y inh -> gd_get streq w y = gd_get streq x y)).
          { destruct (experiment ms inh) eqn:Eexp.
            - destruct (He eq_refl) as (HE1 & HE2 & HE3). destruct (HE1 z here) as (w & W1 & W2 & W3 & W4 & W5).
              { exact Z2. } { intros y Hy. apply Z3. now left. } { exact Hd. } { exact Zb. }
              exists w. split; [exact W1|]. split; [|split; [congruence|split; [|discriminate]]].
              + unfold get_value, get_attr in *. destruct (W3 (lit "base_dir")) as [_ ->]; [discriminate| |exact Zb].
                intros H. apply HE2. now apply member_name_struct.
              + intros _. split; [exact W2|]. constructor.
                * intros y Y1 Y2 Y3. destruct (W3 y Y2) as [-> _].
                  { intros (q1 & q2 & q3 & q4 & q5 & H). apply Y3. exists q1, q2, q3, q4, q5. exact H. }
                  now destruct (Z2 y Y1) as [-> _].
                * intros m Hm. specialize (W4 m Hm).
                  assert (G : gd_get streq z (member_name m) = gd_get streq x (member_name m)).
                  { apply Z2. intros H. apply (Hd _ H). now apply in_map. }
                  inversion W4 as [|? ? ? ? ? ? ? ? G1 G2|? ? ? ? ? ? ? ? ? x' z' G1 G2 G3 G4]; subst; cbn [member_name] in G.
                  -- constructor.
                  -- apply KeptUnset; congruence.
                  -- eapply KeptStruct; [rewrite <- G; exact G1|exact G2|exact G3|exact G4].
            - exists z. split; [reflexivity|]. split; [exact Zb|]. split; [exact Zs|]. split; [discriminate|].
              intros _ y Hy. now destruct (Z2 y Hy) as [-> _]. }
          destruct CH as (w & W1 & W2 & W3 & W4 & W5). rewrite W1, (log_path_ok ms w here d W2 W3).
          set (cur1 := gd_set streq cur n (SInst w)).
          exists (match gd_get streq (own_attrs w) (lit "output_dim") with Some v => gd_set streq cur1 (lit "input_dim") (SVal v) | None => cur1 end), (path_join2 here d).
          split; [reflexivity|]. assert (Hni : n <> lit "input_dim") by (intros ->; apply HI; now left).
          assert (S1 : forall y, y <> n -> same_at cur cur1 y).
          { intros y Hy. apply same_at_set. congruence. }
          split; [|split].
          * intros y Y1 Y2. assert (Y3 : y <> n).
            { destruct Y2 as [Y2|[Y2|(f & Y2)]]; [exact Y2|congruence|discriminate]. }
            destruct (gd_get streq (own_attrs w) (lit "output_dim")); [|now apply S1].
            eapply same_at_trans; [now apply S1|]. apply same_at_set. congruence.
          * intros y Hy. assert (Hy1 : gd_get streq cur1 y <> None) by now apply set_some.
            destruct (gd_get streq (own_attrs w) (lit "output_dim")); [now apply set_some|exact Hy1].
          * intros b Eb. assert (Eb' : gd_get streq b n = Some (SInst w)).
            { rewrite Eb. assert (G1 : gd_get streq cur1 n = Some (SInst w)) by (unfold cur1; now rewrite (get_set streq streq_spec), streq_refl).
              destruct (gd_get streq (own_attrs w) (lit "output_dim")); [|exact G1].
              rewrite (get_set streq streq_spec), streq_ne; [exact G1|congruence]. }
            split; [|split].
            -- intros HW. apply (WalkedStruct experiment dir here n req k p t ms inh l b w d Eb' eq_refl W2 W3); [|exact HW].
               intros He'. now destruct (W4 He').
            -- apply (KeptStruct experiment cur b n req k p t ms inh x w Ec Eb'); [|exact W5]. intros He'. now destruct (W4 He').
            -- rewrite !member_string_struct, Eb', Ec, W3, Ed. reflexivity. }
    destruct TURN as (cur2 & dir2 & T1 & T2 & T3 & T4).
    destruct (IH cur2 dir2 N2 HB' HI') as (b & q & B1 & B2 & B3 & B4 & B5).
    { intros m' Hm'. apply HM. now right. }
    { intros m' Hm'. rewrite <- (HC m' (or_intror Hm')). apply T2.
      - intros E. apply HI'. rewrite <- E. now apply in_map.
      - left. intros E. apply N1. rewrite <- E. now apply in_map. }
    { intros x Hx. apply T3. now apply HA. }
    assert (Mi : member_name m <> lit "input_dim") by (intros E; apply HI; now left).
    assert (Eb : gd_get streq b (member_name m) = gd_get streq cur2 (member_name m)).
    { apply B3; [exact Mi|]. intros H. apply N1. now apply member_name_struct. }
    destruct (T4 b Eb) as (T5 & T6 & T7).
    exists b, q. split; [cbn [Experiments.enter_members]; now rewrite T1, B1|]. split; [now apply T5|]. split; [|split].
    - intros x X1 X2. eapply same_at_trans.
      + apply T2; [exact X1|]. destruct (list_eq_dec Z.eq_dec x (member_name m)) as [Ex|Ex]; [|now left]. right.
        destruct m as [f|n req k p t con]; [right; eauto|]. exfalso. apply X2. cbn [member_name] in Ex. subst x.
        exists req, k, p, t, con. now left.
      + apply B3; [exact X1|]. intros (q1 & q2 & q3 & q4 & q5 & H). apply X2. exists q1, q2, q3, q4, q5. now right.
    - intros m' [<-|Hm']; [split; [exact T6|exact T7]|]. destruct (B4 m' Hm') as [K1 K2].
      assert (G : gd_get streq cur2 (member_name m') = gd_get streq cur (member_name m')).
      { apply T2.
        - intros E. apply HI'. rewrite <- E. now apply in_map.
        - left. intros E. apply N1. rewrite <- E. now apply in_map. }
      split.
      + inversion K1 as [|? ? ? ? ? ? ? ? G1 G2|? ? ? ? ? ? ? ? ? x' z' G1 G2 G3 G4]; subst; cbn [member_name] in G.
        * constructor.
        * apply KeptUnset; congruence.
        * eapply KeptStruct; [rewrite <- G; exact G1|exact G2|exact G3|exact G4].
      + destruct m' as [f|n req k p t con]; [exact I|]. rewrite K2. cbn [member_name] in G. cbn [member_string]. now rewrite G.
    - intros x Hx. apply B5. now apply T3.
  Qed.

  Lemma enters_step avail members a d : nested_string members a = Ok d -> NoDup (map member_name members) ->
    ~ In (lit "base_dir") (map member_name members) -> ~ In (lit "input_dim") (map member_name members) ->
    (forall m, In m members -> member_enters avail a m) -> enters avail members a.
  Proof.
    intros HS HN HB HI HM a1 dir Ha Hav Hd Hb.
    assert (HS1 : nested_string members a1 = Ok d).
    { rewrite <- HS. apply string_ext. intros y Hy. apply Ha. intros H. exact (Hd y H Hy). }
    destruct (string_nonpos members a1 d HS1) as (s & Es).
    set (c := gd_set streq a1 (lit "input_dim") (SVal (Some VNone))).
    assert (C1 : forall x, x <> lit "input_dim" -> same_at a1 c x) by (intros x Hx; apply same_at_set; congruence).
    destruct (loop_ok avail a members c (normpath (path_join2 dir s)) HN HB HI HM) as (b & q & B1 & B2 & B3 & B4 & B5).
    { intros m Hm. transitivity (gd_get streq a1 (member_name m)).
      - apply C1. intros E. apply HI. rewrite <- E. now apply in_map.
      - apply Ha. intros H. apply (Hd _ H). now apply in_map. }
    { intros x Hx. destruct (list_eq_dec Z.eq_dec x (lit "input_dim")) as [->|Hi].
      - unfold c. now rewrite (get_set streq streq_spec), streq_refl.
      - destruct (C1 x Hi) as [-> _]. destruct (in_dec (list_eq_dec Z.eq_dec) x avail) as [Hin|Hin]; [now apply Hav|].
        destruct (Ha x Hin) as [-> _]. destruct Hx as [Hx|[Hx|Hx]]; [contradiction|contradiction|exact Hx]. }
    assert (F : forall x, x <> lit "input_dim" -> ~ struct_name members x -> same_at a1 b x).
    { intros x H1 H2. eapply same_at_trans; [now apply C1|]. now apply B3. }
    assert (FN : forall f, In f (own_fields members) -> gd_get streq (own_attrs b) (f_name f) = gd_get streq (own_attrs a1) (f_name f)).
    { intros f Hf. apply own_in in Hf. apply F.
      - intros E. apply HI. rewrite <- E. exact (in_map member_name _ _ Hf).
      - intros (req & k & p & t & con & H). 
        assert (E : MField f = MStruct (f_name f) req k p t con); [|discriminate].
        apply (nodup_name members); [exact HN|exact Hf|exact H|reflexivity]. }
    exists b. split; [|split; [|split; [exact F|split]]].
    - unfold Experiments.enter_exp, enter_with. rewrite (value_attr _ _ _ Hb), Es. fold c. rewrite B1. reflexivity.
    - apply (Entered experiment members b dir s); [|..]; [| |exact B2].
      + unfold get_value, get_attr in *. destruct (F (lit "base_dir")) as [_ ->]; [discriminate| |exact Hb].
        intros H. apply HB. now apply member_name_struct.
      + rewrite <- Es. apply nonpos_ext. intros f Hf _. unfold get_attr. rewrite (FN f Hf).
        now destruct (gd_get streq (own_attrs a1) (f_name f)) as [[]|].
    - intros m Hm. destruct (B4 m Hm) as [K _].
      assert (G : gd_get streq c (member_name m) = gd_get streq a1 (member_name m)).
      { apply C1. intros E. apply HI. rewrite <- E. now apply in_map. }
      inversion K as [|? ? ? ? ? ? ? ? G1 G2|? ? ? ? ? ? ? ? ? x' z' G1 G2 G3 G4]; subst; cbn [member_name] in G.
      + constructor.
      + apply KeptUnset; congruence.
      + eapply KeptStruct; [rewrite <- G; exact G1|exact G2|exact G3|exact G4].
    - assert (HP : forall l, incl l members -> member_strings l b = member_strings l a1).
      { induction l as [|m l IHl]; intros Hl; [reflexivity|]. cbn [member_strings]. rewrite (IHl (fun x H => Hl x (or_intror H))).
        replace (member_string m b) with (member_string m a1); [reflexivity|]. assert (Hm : In m members) by (apply Hl; now left).
        destruct (B4 m Hm) as [_ K]. destruct m as [f|n req k p t con].
        - cbn [member_string]. destruct (f_transient f || negb (f_positional f)); [reflexivity|]. unfold get_attr.
          now rewrite (FN f) by now apply own_in.
        - rewrite K. assert (G : gd_get streq c n = gd_get streq a1 n).
          { apply C1. intros E. apply HI. rewrite <- E. exact (in_map member_name _ _ Hm). }
          cbn [member_string]. now rewrite G. }
      unfold nested_string, string_of_parts. rewrite (HP members (fun x H => H)).
      rewrite (nonpos_ext (own_fields members) (own_attrs b) (own_attrs a1)); [reflexivity|].
      intros f Hf _. unfold get_attr. rewrite (FN f Hf). now destruct (gd_get streq (own_attrs a1) (f_name f)) as [[]|].
  Qed.

  Lemma enters_all avail members a : ready experiment avail members a ->
    enters avail members a /\ ~ In (lit "base_dir") (map member_name members) /\ ~ In (lit "input_dim") (map member_name members).
  Proof.
    revert avail members a.
    refine (ready_mut experiment (fun avail members a _ => enters avail members a /\
        ~ In (lit "base_dir") (map member_name members) /\ ~ In (lit "input_dim") (map member_name members))
      (fun avail a m _ => member_enters avail a m) _ _ _ _).
    - intros avail members a d HS HN HB HI HM IH. split; [|now split]. now apply (enters_step avail members a d).
    - intros avail a f. exact I.
    - intros avail a n req k p t con E. now left.
    - intros avail a n req k p t ms inh x d Ex Ed Hb Hd Ha Hr IH. right. exists ms, inh, x, d.
      repeat (split; [assumption || reflexivity|]). exact IH.
  Qed.

  Lemma enter_ok members a d : ready experiment [] members a -> get_value a (lit "base_dir") = Some (VStr d) ->
    exists b, enter_exp members a = (b, Ok tt) /\ entered experiment members b /\ kept_all experiment members [] a b /\
      get_value b (lit "base_dir") = Some (VStr d) /\ nested_string members b = nested_string members a.
  Proof.
    intros H Hb. destruct (enters_all _ _ _ H) as (HE & HB & _).
    destruct (HE a d) as (b & B1 & B2 & B3 & B4 & B5); [intros; apply same_at_refl|intros x []|intros x []|exact Hb|].
    exists b. split; [exact B1|]. split; [exact B2|]. split; [|split; [|exact B5]].
    - constructor; [|exact B4]. intros x _ X1 X2. apply B3; [exact X1|exact X2].
    - unfold get_value, get_attr in *. destruct (B3 (lit "base_dir")) as [_ ->]; [discriminate| |exact Hb].
      intros Hs. apply HB. now apply member_name_struct.
  Qed.
End enter.
