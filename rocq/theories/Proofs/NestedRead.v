(** Reading the directory string of a Structure with other Structures in it. *)
From Coq Require Import Permutation.
From Verif Require Import Proofs.DictFacts Proofs.ParamsFacts Proofs.StrFacts Proofs.PyFacts Proofs.FileNamesFacts
  Proofs.PathFacts Proofs.StructuresFacts Proofs.StructuresRead Proofs.StructuresTop Proofs.NestedFacts Spec.NestedSpec.
Open Scope Z_scope.
Notation get := (gd_get streq).

(** ** Names *)
Lemma nodup_app {A} (l m : list A) : NoDup (l ++ m) -> NoDup l /\ NoDup m /\ forall x, In x l -> ~ In x m.
Proof.
  induction l as [|y l IH]; cbn; intros H; [split; [constructor|split; [exact H|intros x []]]|].
  inversion H as [|? ? N H']; subst. destruct (IH H') as (H1 & H2 & H3). rewrite in_app_iff in N. split; [constructor; tauto|].
  split; [exact H2|]. intros x [<-|Hx]; [tauto|now apply H3].
Qed.

(** the fields of a class and of the classes it holds, each with the instance it belongs to *)
Inductive inside : list member -> sattrs -> field -> attrs -> Prop :=
| Here members a f : In (MField f) members -> inside members a f (own_attrs a)
| There members a n req k p t ms inh b f x :
    In (MStruct n req k p t (Some (ms, inh))) members -> gd_get streq a n = Some (SInst b) -> inside ms b f x ->
    inside members a f x.

Lemma field_name_in f members : In (MField f) members -> In (f_name f) (all_names members).
Proof. intros H. apply in_flat_map. exists (MField f). split; [exact H|now left]. Qed.
Lemma inside_name members a f x : inside members a f x -> In (f_name f) (all_names members).
Proof.
  induction 1 as [members a f H|members a n req k p t ms inh b f x H1 H2 H3 IH]; [now apply field_name_in|].
  apply in_flat_map. eexists. split; [exact H1|]. right. exact IH.
Qed.
Lemma inside_app l m a f x : inside (l ++ m) a f x <-> inside l a f x \/ inside m a f x.
Proof.
  split.
  - intros H. inversion H as [? ? ? Hin|? ? n req k p t ms inh b ? ? Hin Eb Hi]; subst; apply in_app_iff in Hin as [Hin|Hin].
    + left. now constructor.
    + right. now constructor.
    + left. econstructor; eassumption.
    + right. econstructor; eassumption.
  - intros [H|H]; inversion H as [? ? ? Hin|? ? n req k p t ms inh b ? ? Hin Eb Hi]; subst.
    + constructor. apply in_app_iff. now left.
    + econstructor; [apply in_app_iff; left; exact Hin|eassumption..].
    + constructor. apply in_app_iff. now right.
    + econstructor; [apply in_app_iff; right; exact Hin|eassumption..].
Qed.
Lemma inside_none a f x : ~ inside [] a f x.
Proof. intros H. inversion H as [? ? ? Hin|? ? n req k p t ms inh b ? ? Hin Eb Hi]; subst; destruct Hin. Qed.
Lemma inside_field g a f x : inside [MField g] a f x <-> f = g /\ x = own_attrs a.
Proof.
  split.
  - intros H. inversion H as [? ? ? Hin|? ? n req k p t ms inh b ? ? Hin Eb Hi]; subst; destruct Hin as [E|[]]; [|discriminate].
    injection E as ->. tauto.
  - intros [-> ->]. constructor. now left.
Qed.
Lemma inside_struct n req k p t ms inh a b f x : gd_get streq a n = Some (SInst b) ->
  (inside [MStruct n req k p t (Some (ms, inh))] a f x <-> inside ms b f x).
Proof.
  intros E. split.
  - intros H. inversion H as [? ? ? Hin|? ? n' req' k' p' t' ms' inh' b' ? ? Hin Eb Hi]; subst; destruct Hin as [E'|[]]; [discriminate|].
    injection E' as -> -> -> -> -> -> ->. rewrite E in Eb. injection Eb as ->. exact Hi.
  - intros H. econstructor; [now left|exact E|exact H].
Qed.

(** ** Dictionaries *)
Lemma update_get e : forall d k, NoDup (map fst e) ->
  get (dict_update d e) k = match get e k with Some v => Some v | None => get d k end.
Proof.
  unfold dict_update. induction e as [|[k0 v0] e IH]; intros d k HN; [reflexivity|]. cbn [fold_left fst snd gd_get].
  cbn [map fst] in HN. inversion HN as [|? ? N HN']; subst. rewrite IH by exact HN'. rewrite (get_set streq streq_spec).
  destruct (streq k0 k) eqn:E; [|reflexivity]. apply streq_spec in E. subst k0.
  now rewrite (proj2 (DictFacts.get_none streq streq_spec _ _) N).
Qed.
Lemma update_nodup e : forall d, NoDup (map fst d) -> NoDup (map fst (dict_update d e)).
Proof.
  unfold dict_update. induction e as [|p e IH]; intros d H; [exact H|]. cbn [fold_left]. apply IH.
  now apply (set_nodup streq streq_spec).
Qed.

Section turns.
  Variable literal_eval : pystr -> option pval.
  Variable uni : pystr -> option Z.
  Variable uninumeric : pystr -> bool.
  Lemma step_nodup deep v st st2 :
    (do (skip, st1) <- dir_step literal_eval uni uninumeric v st;
     if skip then Ok st1 else dir_eval literal_eval uni uninumeric deep v st1) = Ok st2 ->
    NoDup (map fst (d_params st)) -> NoDup (map fst (d_params st2)).
  Proof.
    intros E HN.
    assert (HS : forall skip st1, dir_step literal_eval uni uninumeric v st = Ok (skip, st1) -> NoDup (map fst (d_params st1))).
    { unfold dir_step. intros skip st1 ES. destruct (f_transient v); [now injection ES as <- <-|].
      destruct (f_positional v).
      - destruct (path_split (d_string st)) as [ds name]. destruct (f_keyword v).
        + destruct (de_string literal_eval uni uninumeric name) as [p|]; [|discriminate]. cbn [bind] in ES.
          destruct (part_at p 0) as [p0|]; [|discriminate]. cbn [bind] in ES. destruct (negb (is_name p0 (f_name v))).
          * destruct (f_required v); [discriminate|]. now injection ES as <- <-.
          * match type of ES with (do val <- ?x; _) = _ => destruct x; [|discriminate] end. cbn [bind] in ES. injection ES as <- <-.
            cbn. now apply (set_nodup streq streq_spec).
        + injection ES as <- <-. cbn. now apply (set_nodup streq streq_spec).
      - destruct (f_keyword v); [|now injection ES as <- <-].
        destruct (existsb (streq (f_name v)) (d_keyworded st)); [now injection ES as <- <-|].
        destruct (f_required v && _); [discriminate|]. now injection ES as <- <-. }
    destruct (dir_step literal_eval uni uninumeric v st) as [[skip st1]|]; [|discriminate]. cbn [bind] in E.
    specialize (HS skip st1 eq_refl). destruct skip; [now injection E as <-|]. unfold dir_eval in E.
    destruct (deep && _); [|now injection E as <-]. destruct (gd_lookup streq (d_params st1) (f_name v)) as [p|]; [|discriminate]. cbn [bind] in E.
    destruct (field_de_string literal_eval uni uninumeric (f_class v) p); [|discriminate]. cbn [bind] in E. injection E as <-.
    cbn. now apply (set_nodup streq streq_spec).
  Qed.
End turns.

Section read.
  Variable literal_eval : pystr -> option pval.
  Variable uni : pystr -> option Z.
  Variable uninumeric : pystr -> bool.
  Variable pval_eq : pval -> pval -> bool.
  Variable other_int : pystr -> option Z.
  Variable is_float : pystr -> bool.
  Variable to_float : pval -> option pval.
  Variable to_str : pval -> pystr.
  Variable other_true : pystr -> bool.
  Hypothesis HE : evaluates literal_eval.
  Notation de := (de_string literal_eval uni uninumeric).
  Notation nested_ok := (nested_ok literal_eval uninumeric is_float).
  Notation member_ok := (member_ok literal_eval uninumeric is_float).
  Notation inst_ok := (inst_ok literal_eval uninumeric).
  Notation all_kept := (all_kept literal_eval uninumeric is_float).
  Notation member_read := (member_read literal_eval uni uninumeric pval_eq).
  Notation items_read := (members_read literal_eval uni uninumeric pval_eq).
  Notation nested_params := (nested_params literal_eval uni uninumeric pval_eq).
  Notation nested_from_dir := (nested_from_dir literal_eval uni uninumeric pval_eq).
  Notation set_self := (set_self literal_eval uni uninumeric other_int is_float to_float to_str other_true).
  Notation fit := (comps_fit).

  Lemma member_read_struct deep n req k p t ms inh st : member_read deep (MStruct n req k p t (Some (ms, inh))) st =
    if t then Ok st
    else match nested_from_dir ms deep (d_string st) with
         | Ok sparams =>
             do b <- gd_lookup streq sparams (lit "base_dir");
             match b with
             | VStr s => Ok (DState s (d_keyworded st) (d_npnk st)
                               (dict_update (d_params st) (gd_pop streq sparams (lit "base_dir"))))
             | _ => Err TypeError
             end
         | Err ValueError => if req then Err ValueError else Ok st
         | Err e => Err e
         end.
  Proof.
    cbn [Nested.member_read]. destruct t; [reflexivity|].
    match goal with |- context[nested_params ms (?g ms)] => assert (E : forall l st, g l st = items_read deep l st) end.
    { induction l as [|x l IH]; intros st0; [reflexivity|]. cbn [members_read]. rewrite <- IH. reflexivity. }
    assert (EX : forall loop loop', (forall st, loop st = loop' st) -> forall d, nested_params ms loop deep d = nested_params ms loop' deep d).
    { intros loop loop' EL d. unfold Nested.nested_params. destruct (nested_npnk ms) as [npnk|]; [|reflexivity]. cbn [bind].
      match goal with |- bind ?x _ = _ => destruct x as [[[ds ps] ks]|]; [|reflexivity] end. cbn [bind]. now rewrite EL. }
    unfold Nested.nested_from_dir. rewrite (EX _ _ (E ms)). reflexivity.
  Qed.

  (** ** What is read for a field *)
  Definition flat_of (x : attrs) (f : field) : pval :=
    if f_positional f && f_keyword f then match de (tx x f) with Ok r => r | Err _ => VNone end else VStr (tx x f).
  Definition fin_of (x : attrs) (f : field) : pval :=
    if match f_class f with CStr => false | _ => true end
    then match field_de_string literal_eval uni uninumeric (f_class f) (flat_of x f) with Ok w => w | Err _ => VNone end
    else flat_of x f.

  Lemma fin_spec fs x : inst_ok fs x -> all_kept fs x -> forall f v, In f fs -> shown f -> get_attr x (f_name f) = Some v ->
    (if f_positional f && f_keyword f then de (tx x f) = Ok (flat_of x f) else flat_of x f = VStr (tx x f)) /\
    (if match f_class f with CStr => false | _ => true end
     then field_de_string literal_eval uni uninumeric (f_class f) (flat_of x f) = Ok (fin_of x f) else fin_of x f = flat_of x f) /\
    same_value v (fin_of x f) /\
    forall a kw, get kw (f_name f) = Some (fin_of x f) -> set_self f a kw = Ok (gd_set streq a (f_name f) (Some (fin_of x f))).
  Proof.
    intros HI HA f v Hf Hs Ev. destruct (tx_spec _ _ _ _ HI f v Hf Hs Ev) as (T & _).
    destruct (HA f Hf) as [A _]. rewrite Ev in A.
    destruct (kept_read literal_eval uni uninumeric pval_eq other_int is_float to_float to_str other_true HE f v _ (A Hs) T)
      as (r & w & R1 & R2 & R3 & R4).
    assert (Efl : flat_of x f = r).
    { unfold flat_of. destruct (f_positional f && f_keyword f); [now rewrite R1|now symmetry]. }
    assert (Efi : fin_of x f = w).
    { unfold fin_of. rewrite Efl. destruct (match f_class f with CStr => false | _ => true end); [now rewrite R2|now symmetry]. }
    rewrite Efl, Efi. tauto.
  Qed.

  Lemma npnk_own members : (forall m, In m members -> match m with MField _ => True | MStruct _ _ _ p _ _ => p = true end) ->
    nested_npnk members = has_npnk (own_fields members).
  Proof.
    intros H. unfold nested_npnk, has_npnk.
    match goal with |- match map _ (filter ?g _) with _ => _ end = match ?r with _ => _ end =>
      assert (E : map member_name (filter g members) = r) end.
    { induction members as [|m l IH]; [reflexivity|]. cbn [filter own_fields flat_map].
      assert (IH' := IH (fun x Hx => H x (or_intror Hx))). specialize (H m ltac:(now left)). destruct m as [f|n req k p t con].
      - cbn [app filter]. destruct (negb (f_positional f) && negb (f_keyword f) && negb (f_transient f)); cbn [map]; [f_equal|]; exact IH'.
      - subst p. cbn [negb andb app]. exact IH'. }
    rewrite E. reflexivity.
  Qed.

  Definition reads (members : list member) (a : sattrs) : Prop :=
    NoDup (all_names members) -> ~ In (lit "base_dir") (all_names members) ->
    forall rooted Y, Forall plain Y ->
    exists params, nested_from_dir members true (path_text rooted (Y ++ ncomps members a)) = Ok params /\
      NoDup (map fst params) /\ get params (lit "base_dir") = Some (VStr (path_text rooted Y)) /\
      (forall f x, inside members a f x -> get params (f_name f) = fin_val x (fin_of x) f) /\
      (forall k, k <> lit "base_dir" -> (forall f x, inside members a f x -> f_name f <> k) -> get params k = None).
  Definition member_reads (a : sattrs) (m : member) : Prop :=
    match m with
    | MField _ => True
    | MStruct n req k p t con => p = true /\ t = false /\ exists ms inh b, con = Some (ms, inh) /\
        gd_get streq a n = Some (SInst b) /\ comps_fit ms b /\ reads ms b
    end.

  Section loop.
    Variable members : list member.
    Variable a : sattrs.
    Hypothesis HC : class_fit (own_fields members).
    Hypothesis HI : inst_ok (own_fields members) (own_attrs a).
    Hypothesis HA : all_kept (own_fields members) (own_attrs a).
    Hypothesis HM : forall m, In m members -> member_reads a m.
    Hypothesis HN : NoDup (all_names members).
    Hypothesis HB : ~ In (lit "base_dir") (all_names members).
    Variable rooted : bool.
    Variable Y : list pystr.
    Hypothesis HY : Forall plain Y.
    Notation fin := (fin_of (own_attrs a)).
    Notation isset := (isset (own_attrs a)).

    Record ninv (L D : list member) (st : dstate) : Prop := {
      n_string : d_string st = path_text rooted (Y ++ flat_map (fun m => member_comps m a) L);
      n_nodup : NoDup (d_keyworded st);
      n_keys : forall f, In (MField f) L -> shown f -> f_positional f = false -> f_keyword f = true ->
        (In (f_name f) (d_keyworded st) <-> isset f = true);
      n_todo : forall f, In (MField f) L -> get (d_params st) (f_name f) = ini_val (own_attrs a) f;
      n_done : forall f x, inside D a f x -> get (d_params st) (f_name f) = fin_val x (fin_of x) f;
      n_else : forall k, (forall f, In (MField f) L -> f_name f <> k) -> (forall f x, inside D a f x -> f_name f <> k) ->
        get (d_params st) k = None;
      n_params : NoDup (map fst (d_params st));
      n_npnk : forall f, d_npnk st = Some f -> In (MField f) members /\ nameless f }.

    Lemma comps_plain_all L : incl L members -> Forall plain (flat_map (fun m => member_comps m a) L).
    Proof.
      intros HL. apply Forall_forall. intros c Hc. apply in_flat_map in Hc as (m & Hm & Hc). apply HL in Hm.
      destruct m as [f|n req k p t con].
      - cbn [member_comps] in Hc. destruct (pos_field f) eqn:Ep; [|destruct Hc]. destruct Hc as [<-|[]].
        pose proof (pos_plain _ _ _ _ HC HI) as HP. rewrite Forall_forall in HP. apply HP, in_map, filter_In.
        split; [now apply own_in|exact Ep].
      - destruct (HM _ Hm) as (_ & _ & ms & inh & b & -> & Eb & (C1 & _) & _). cbn [member_comps] in Hc. rewrite Eb in Hc.
        rewrite Forall_forall in C1. now apply C1.
    Qed.

    Lemma turn_ok L m D st : members = L ++ m :: D -> ninv (L ++ [m]) D st ->
      exists st2, member_read true m st = Ok st2 /\ ninv L (m :: D) st2.
    Proof.
      intros EM I. destruct I as [I1 I2 I3 I4 I5 I6 I7 I8].
      assert (Hm : In m members) by (rewrite EM; apply in_elt).
      assert (HL : incl L members) by (intros x Hx; rewrite EM, in_app_iff; now left).
      assert (NM : NoDup (all_names L ++ names m ++ all_names D)).
      { clear -HN EM. rewrite EM in HN. unfold all_names in *. rewrite flat_map_app in HN. exact HN. }
      apply nodup_app in NM as (_ & NM & NL). apply nodup_app in NM as (_ & _ & ND).
      assert (NLm : forall k, In k (all_names L) -> ~ In k (names m)).
      { intros k Hk H. apply (NL k Hk). apply in_app_iff. now left. }
      assert (PL : Forall plain (Y ++ flat_map (fun m => member_comps m a) L)).
      { apply Forall_app. split; [exact HY|]. now apply comps_plain_all. }
      rewrite flat_map_app in I1. cbn [flat_map] in I1. rewrite app_nil_r, app_assoc in I1.
      assert (HML : In m (L ++ [m])) by (apply in_app_iff; right; now left).
      destruct m as [f|n req kd p t con].
      - (* a field *)
        assert (Hf : In f (own_fields members)) by now apply own_in.
        destruct (field_step literal_eval uni uninumeric (own_fields members) (own_attrs a) HC HI true
          (flat_of (own_attrs a)) fin) with (rooted := rooted) (v := f) (st := st) (Y := Y ++ flat_map (fun m => member_comps m a) L)
          as (st2 & S0 & S1 & S2 & S3 & S4 & S5 & S6).
        { intros g H1 H2 H3. unfold StructuresFacts.isset in H3. destruct (get_attr (own_attrs a) (f_name g)) as [v|] eqn:Ev; [|discriminate].
          now destruct (fin_spec _ _ HI HA g v H1 H2 Ev) as (? & _). }
        { intros g H1 H2 H3. unfold StructuresFacts.isset in H3. destruct (get_attr (own_attrs a) (f_name g)) as [v|] eqn:Ev; [|discriminate].
          now destruct (fin_spec _ _ HI HA g v H1 H2 Ev) as (_ & ? & _). }
        { exact Hf. }
        { exact PL. }
        { exact I1. }
        { exact I2. }
        { now apply I3. }
        { now apply I4. }
        exists st2. split; [exact S0|]. cbn [names] in NLm, ND.
        constructor.
        + exact S1.
        + exact S2.
        + intros g Hg H1 H2 H3. rewrite S3; [apply I3; try assumption; apply in_app_iff; now left|].
          intros E. apply (NLm (f_name g)); [now apply field_name_in|left; now symmetry].
        + intros g Hg. rewrite S5; [apply I4, in_app_iff; now left|].
          intros E. apply (NLm (f_name g)); [now apply field_name_in|left; exact E].
        + intros g x Hi. change (MField f :: D) with ([MField f] ++ D) in Hi. apply inside_app in Hi as [Hi|Hi].
          * apply inside_field in Hi as [-> ->]. exact S4.
          * rewrite S5; [now apply I5|]. intros E. apply (ND (f_name f)); [now left|]. rewrite E. now apply inside_name in Hi.
        + intros k HkL HkD. assert (Nk : f_name f <> k).
          { apply (HkD f (own_attrs a)). constructor. now left. }
          rewrite S5 by exact Nk. apply I6.
          * intros g Hg. apply in_app_iff in Hg as [Hg|[E|[]]]; [now apply HkL|]. injection E as <-. exact Nk.
          * intros g x Hi. apply (HkD g x). change (MField f :: D) with ([MField f] ++ D). apply inside_app. now right.
        + eapply step_nodup; [exact S0|exact I7].
        + intros g E. destruct S6 as [S6|[S6 Hn]]; [apply I8; congruence|]. rewrite S6 in E. injection E as <-. tauto.
      - (* a Struct *)
        destruct (HM _ Hm) as (-> & -> & ms & inh & b & -> & Eb & (C1 & C2 & _) & HR). cbn [names] in NLm, ND.
        assert (Nms : NoDup (all_names ms) /\ ~ In (lit "base_dir") (all_names ms)).
        { unfold all_names in HN, HB. rewrite EM, flat_map_app in HN, HB. cbn [flat_map names] in HN, HB. split.
          - apply nodup_app in HN as (_ & HN & _). cbn [app] in HN. inversion HN as [|? ? _ HN']; subst.
            now apply nodup_app in HN' as (HN' & _).
          - intros H. apply HB. apply in_app_iff. right. right. apply in_app_iff. now left. }
        cbn [member_comps] in I1. rewrite Eb in I1. fold (ncomps ms b) in I1.
        destruct (HR (proj1 Nms) (proj2 Nms) rooted (Y ++ flat_map (fun m => member_comps m a) L) PL) as (ps & R1 & R2 & R3 & R4 & R5).
        rewrite member_read_struct, I1, R1. unfold gd_lookup. rewrite R3. cbn [bind]. eexists. split; [reflexivity|].
        assert (G : forall k, get (dict_update (d_params st) (gd_pop streq ps (lit "base_dir"))) k =
          if streq (lit "base_dir") k then get (d_params st) k
          else match get ps k with Some v => Some v | None => get (d_params st) k end).
        { intros k. rewrite update_get by (now apply (pop_nodup streq streq_spec)). rewrite (get_pop streq streq_spec) by exact R2.
          now destruct (streq (lit "base_dir") k). }
        assert (NB : forall k, In k (all_names members) -> streq (lit "base_dir") k = false).
        { intros k Hk. apply streq_ne. intros <-. now apply HB. }
        assert (Hmsin : forall k, In k (all_names ms) -> In k (all_names members)).
        { intros k Hk. apply in_flat_map. eexists. split; [exact Hm|]. right. exact Hk. }
        assert (HO : forall k, ~ In k (all_names ms) -> get (dict_update (d_params st) (gd_pop streq ps (lit "base_dir"))) k = get (d_params st) k).
        { intros k Nk. rewrite G. destruct (streq (lit "base_dir") k) eqn:Ek; [reflexivity|]. rewrite R5; [reflexivity| |].
          - intros ->. rewrite streq_refl in Ek. discriminate.
          - intros f x Hi E. apply Nk. rewrite <- E. now apply inside_name in Hi. }
        constructor; cbn [d_string d_keyworded d_params d_npnk].
        + reflexivity.
        + exact I2.
        + intros g Hg. apply I3. apply in_app_iff. now left.
        + intros g Hg. rewrite HO; [apply I4, in_app_iff; now left|].
          intros H. apply (NLm (f_name g)); [now apply field_name_in|now right].
        + intros g x Hi. match type of Hi with inside (?h :: D) _ _ _ => change (h :: D) with ([h] ++ D) in Hi end.
          apply inside_app in Hi as [Hi|Hi].
          * apply (inside_struct n req kd true false ms inh a b g x Eb) in Hi. pose proof (R4 g x Hi) as E4. pose proof (inside_name _ _ _ _ Hi) as Hin.
            rewrite G, NB by now apply Hmsin. rewrite E4. destruct (fin_val x (fin_of x) g) eqn:EF; [reflexivity|].
            apply I6.
            -- intros f Hf E. apply in_app_iff in Hf as [Hf|[X|[]]]; [|discriminate].
               apply (NLm (f_name f)); [now apply field_name_in|right; now rewrite E].
            -- intros f y Hy E. apply (ND (f_name g)); [now right|]. rewrite <- E. now apply inside_name in Hy.
          * rewrite HO; [now apply I5|]. intros H. apply (ND (f_name g)); [now right|]. now apply inside_name in Hi.
        + intros k0 HkL HkD.
          assert (Nk : forall f x, inside ms b f x -> f_name f <> k0).
          { intros f x Hi. apply (HkD f x). match goal with |- inside (?h :: D) _ _ _ => change (h :: D) with ([h] ++ D) end.
            apply inside_app. left. now apply (inside_struct n req kd true false ms inh a b f x Eb). }
          assert (E0 : get (d_params st) k0 = None).
          { apply I6.
            - intros f Hf. apply in_app_iff in Hf as [Hf|[X|[]]]; [now apply HkL|discriminate].
            - intros f x Hi. apply (HkD f x). match goal with |- inside (?h :: D) _ _ _ => change (h :: D) with ([h] ++ D) end.
              apply inside_app. now right. }
          rewrite G. destruct (streq (lit "base_dir") k0) eqn:Ek; [exact E0|]. rewrite R5; [exact E0| |exact Nk].
          intros ->. rewrite streq_refl in Ek. discriminate.
        + now apply update_nodup.
        + exact I8.
    Qed.

    Lemma turns_ok : forall D L st, members = L ++ D -> ninv members [] st ->
      exists st2, items_read true D st = Ok st2 /\ ninv L D st2.
    Proof.
      induction D as [|m D IH]; intros L st EM I.
      - exists st. split; [reflexivity|]. rewrite app_nil_r in EM. now rewrite <- EM.
      - destruct (IH (L ++ [m]) st) as (st1 & E1 & I1); [rewrite <- app_assoc; exact EM|exact I|].
        destruct (turn_ok L m D st1 EM I1) as (st2 & E2 & I2). exists st2. split; [|exact I2].
        cbn [members_read]. now rewrite E1.
    Qed.
  End loop.

  Lemma reads_class members a : class_fit (own_fields members) -> inst_ok (own_fields members) (own_attrs a) ->
    all_kept (own_fields members) (own_attrs a) ->
    (forall f rest, members = MField f :: rest -> f_constant f = None) ->
    members <> [] -> comps_fit members a ->
    (forall d, nested_string members a = Ok d -> contains (lit "txt") (path_ext d) = false) ->
    (forall m, In m members -> member_reads a m) -> reads members a.
  Proof.
    intros HC HI HA HF Hne (C1 & C2 & C3) HX HM HN HB rooted Y HY.
    specialize (HX _ C3).
    assert (HP : Forall plain (Y ++ ncomps members a)) by (apply Forall_app; now split).
    assert (Hne2 : Y ++ ncomps members a <> []) by (intros E; apply app_eq_nil in E as [_ E]; contradiction).
    assert (Hext : contains (lit "txt") (path_ext (path_text rooted (Y ++ ncomps members a))) = false).
    { destruct (exists_last C2) as (l & c & El). rewrite El in C1, HX |- *. apply Forall_app in C1 as [C1 C4].
      inversion C4; subst. rewrite app_assoc, ext_path by (try assumption; apply Forall_app; split; assumption).
      now rewrite ext_path in HX. }
    unfold Nested.nested_from_dir, Nested.nested_params. rewrite Hext, (norm_path rooted _ HP Hne2), npnk_own.
    2:{ intros m Hm. pose proof (HM m Hm) as H. destruct m; [exact I|]. now destruct H. }
    rewrite (has_npnk_ok _ HC). cbn [bind].
    destruct (last_ok literal_eval uninumeric members a HC HI) as (ks & HK & _ & EL & _).
    set (ends := filter np_field (own_fields members) ++ ks) in *.
    assert (HEN : NoDup (map f_name ends)) by (apply (ends_names _ _ _ _ HC HI ks HK)).
    assert (HEI : forall f, In f ends <-> In f (own_fields members) /\ shown f /\ f_positional f = false /\ isset (own_attrs a) f = true)
      by (intros f; apply (in_ends _ _ _ _ HI ks HK)).
    set (X := Y ++ flat_map (fun m => member_comps m a) members).
    assert (HPX : Forall plain X).
    { apply Forall_app. split; [exact HY|]. apply (comps_plain_all members a HC HI HM members). intros m H. exact H. }
    destruct (start_ok literal_eval uninumeric (own_fields members) (own_attrs a) HC HI ks rooted X HK HPX)
      as (kw & K1 & K2 & EST). fold ends in EST. rewrite <- EL in EST.
    unfold ncomps. rewrite app_assoc. fold X.
    match goal with |- context[bind ?x _] => replace x with (@Ok (pystr * list (pystr * pval) * list pystr)
      (path_text rooted X, map (fun f => (f_name f, VStr (tx (own_attrs a) f))) ends, kw)) by (symmetry; exact EST) end.
    cbn [bind]. set (p0 := map (fun f => (f_name f, VStr (tx (own_attrs a) f))) ends).
    assert (HP0 : map fst p0 = map f_name ends) by (unfold p0; now rewrite map_map).
    assert (I0 : ninv members a rooted Y members [] (DState (path_text rooted X) kw None p0)).
    { constructor; cbn [d_string d_keyworded d_npnk d_params].
      - reflexivity.
      - exact K1.
      - intros f Hf. apply K2. now apply own_in.
      - intros f Hf. apply own_in in Hf. unfold ini_val.
        destruct (negb (f_transient f) && negb (f_positional f) && isset (own_attrs a) f) eqn:E.
        + apply andb_true_iff in E as [E E3]. apply andb_true_iff in E as [E1 E2]. apply negb_true_iff in E1, E2.
          apply (in_get streq streq_spec); [rewrite HP0; exact HEN|].
          unfold p0. apply in_map_iff. exists f. split; [reflexivity|]. apply HEI. tauto.
        + apply (DictFacts.get_none streq streq_spec). rewrite HP0. intros H.
          apply in_map_iff in H as (g & Eg & Hg). apply HEI in Hg as (G1 & G2 & G3 & G4).
          assert (g = f) by now apply (name_inj _ HC). subst g. unfold shown in G2. rewrite G2, G3, G4 in E. discriminate.
      - intros f x Hi. now apply inside_none in Hi.
      - intros k Hk _. apply (DictFacts.get_none streq streq_spec). rewrite HP0. intros H.
        apply in_map_iff in H as (g & Eg & Hg). apply HEI in Hg as (G1 & _). apply own_in in G1. now apply (Hk g).
      - rewrite HP0. exact HEN.
      - discriminate. }
    destruct (turns_ok members a HC HI HA HM HN HB rooted Y HY members [] _ eq_refl I0) as (st & EL2 & J).
    rewrite EL2. cbn [bind]. destruct J as [J1 J2 J3 J4 J5 J6 J7 J8]. cbn [flat_map] in J1. rewrite app_nil_r in J1.
    assert (EP : match d_npnk st with
         | Some f =>
             if gd_mem streq (d_params st) (f_name f) then Ok (d_params st)
             else match d_keyworded st with
                  | [k] =>
                      do val <- gd_lookup streq (d_params st) k;
                      do val <- field_de_string literal_eval uni uninumeric (f_class f) val;
                      Ok (gd_set streq (gd_pop streq (d_params st) k) (f_name f) val)
                  | _ => Err ValueError
                  end
         | None => Ok (d_params st)
         end = Ok (d_params st)).
    { destruct (d_npnk st) as [f|] eqn:En; [|reflexivity]. destruct (J8 f eq_refl) as [F1 F2].
      unfold gd_mem. rewrite (J5 f (own_attrs a)) by now constructor. unfold fin_val.
      rewrite (np_set _ _ _ _ HI f) by (now apply own_in || now apply np_nameless).
      destruct F2 as (F2 & _). unfold shown in F2. now rewrite F2. }
    exists (gd_set streq (d_params st) (lit "base_dir") (VStr (d_string st))). split.
    { destruct members as [|m rest]; [contradiction|]. destruct m as [f|n req k p t con].
      - rewrite (HF f rest eq_refl). cbn [bind]. now rewrite EP.
      - cbn [bind]. now rewrite EP. }
    split; [now apply (set_nodup streq streq_spec)|].
    split; [rewrite (get_set streq streq_spec), streq_refl, J1; reflexivity|]. split.
    - intros f x Hi. rewrite (get_set streq streq_spec), streq_ne; [now apply J5|].
      intros E. apply HB. rewrite E. now apply inside_name in Hi.
    - intros k Hk Hi. rewrite (get_set streq streq_spec), streq_ne by congruence. apply J6; [intros f []|exact Hi].
  Qed.

  Theorem reads_all members a : nested_ok members a -> reads members a.
  Proof.
    intros H. revert members a H.
    apply (nested_mut literal_eval uninumeric is_float reads member_reads).
    - intros members a HC HI HA HF HS HX HM HR.
      assert (Hne : members <> []) by (destruct HS as (m & Hm & _); destruct members; [destruct Hm|discriminate]).
      apply reads_class; try assumption. apply (strings_fit literal_eval uninumeric is_float). now constructor.
    - intros a f. exact I.
    - intros a n req ms inh b Eb Hok HR Hinh. split; [reflexivity|]. split; [reflexivity|]. exists ms, inh, b.
      split; [reflexivity|]. split; [exact Eb|]. split; [|exact HR]. now apply (strings_fit literal_eval uninumeric is_float).
  Qed.
End read.
