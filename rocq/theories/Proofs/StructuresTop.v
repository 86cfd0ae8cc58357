(** Structures and their directory strings: the theorems. *)
From Coq Require Import Permutation.
From Verif Require Import Proofs.DictFacts Proofs.ParamsFacts Proofs.StrFacts Proofs.ProtocolFacts Proofs.FileNamesFacts
  Proofs.PathFacts Proofs.StructuresFacts Proofs.StructuresRead Spec.Structures.
Open Scope Z_scope.

Section texts.
  Variable literal_eval : pystr -> option pval.
  Variable uni : pystr -> option Z.
  Variable uninumeric : pystr -> bool.
  Variable pval_eq : pval -> pval -> bool.
  Notation de := (de_string literal_eval uni uninumeric).

  Lemma structure_texts fs inst base : class_ok fs -> inst_ok literal_eval uninumeric fs inst -> normal_dir base ->
    (forall d, get_dir_string fs inst = Ok d -> contains (lit "txt") (path_ext d) = false) ->
    exists d params, get_dir_string fs inst = Ok d /\
      params_from_dir_string literal_eval uni uninumeric pval_eq fs false (path_join2 base d) = Ok params /\
      gd_get streq params (lit "base_dir") = Some (VStr base) /\
      (forall f v, In f fs -> shown f -> get_attr inst (f_name f) = Some v -> exists t, value_text v t /\
         if f_positional f && f_keyword f
         then exists r, de t = Ok r /\ gd_get streq params (f_name f) = Some r
         else gd_get streq params (f_name f) = Some (VStr t)) /\
      (forall f, In f fs -> f_transient f = true \/ get_attr inst (f_name f) = None ->
         gd_get streq params (f_name f) = None) /\
      (forall k, ~ In k (map f_name fs) -> k <> lit "base_dir" -> gd_get streq params k = None).
  Proof.
    intros HC HI (rooted & bcs & -> & HB) Hx.
    set (flat := fun f => if f_positional f && f_keyword f
                          then match de (tx inst f) with Ok r => r | Err _ => VNone end else VStr (tx inst f)).
    assert (HF : forall f, In f fs -> shown f -> isset inst f = true ->
      if f_positional f && f_keyword f then de (tx inst f) = Ok (flat f) else flat f = VStr (tx inst f)).
    { intros f H1 H2 H3. unfold flat. destruct (f_positional f && f_keyword f) eqn:E; [|reflexivity].
      apply andb_true_iff in E as [E1 E2]. destruct (tx_ok _ _ _ _ HI f H1 H2 H3) as [T TS].
      unfold text_ok in T. rewrite E1, E2 in T. destruct T as (T1 & T2 & _).
      destruct (de_piece literal_eval uni uninumeric (tx inst f) TS T1 T2) as (r & ->). reflexivity. }
    destruct (read_ok literal_eval uni uninumeric pval_eq fs inst HC HI false flat flat HF (fun f _ _ _ => eq_refl)
      rooted bcs HB HC Hx) as (d & params & E1 & E2 & E3 & E4 & E5).
    exists d, params. split; [exact E1|]. split; [exact E2|]. split; [exact E3|]. split; [|split; [|exact E5]].
    - intros f v H1 H2 H3. destruct (tx_spec _ _ _ _ HI f v H1 H2 H3) as (T & _).
      exists (tx inst f). split; [exact T|]. rewrite (E4 f H1). unfold fin_val.
      assert (Es : isset inst f = true) by (unfold isset; now rewrite H3). rewrite Es. unfold shown in H2. rewrite H2. cbn [negb andb].
      specialize (HF f H1 H2 Es). destruct (f_positional f && f_keyword f); [eauto|now rewrite HF].
    - intros f H1 H2. rewrite (E4 f H1). unfold fin_val, isset. destruct H2 as [-> | ->]; [reflexivity|]. now rewrite andb_false_r.
  Qed.
End texts.

Lemma same_sym v w : same_value v w -> same_value w v.
Proof. intros [->|(d & e & -> & -> & P)]; [now left|]. right. exists e, d. repeat split. now apply Permutation_sym. Qed.
Lemma same_trans u v w : same_value u v -> same_value v w -> same_value u w.
Proof.
  intros [->|(d & e & -> & -> & P)]; [tauto|]. intros [<-|(d' & e' & E & -> & P')].
  - right. eauto.
  - injection E as <-. right. exists d, e'. repeat split. eapply Permutation_trans; eassumption.
Qed.

Lemma clean_value_text v u : clean_string v = Ok u -> Forall safe u -> value_text v u.
Proof. intros E H. exists u. split; [exact E|]. cbn. now rewrite keep_id. Qed.

(** ** Values *)
Section values.
  Variable literal_eval : pystr -> option pval.
  Variable uni : pystr -> option Z.
  Variable uninumeric : pystr -> bool.
  Variable pval_eq : pval -> pval -> bool.
  Variable other_int : pystr -> option Z.
  Variable is_float : pystr -> bool.
  Variable to_float : pval -> option pval.
  Variable to_str : pval -> pystr.
  Variable other_true : pystr -> bool.
  Hypothesis HE : evaluates literal_eval.
  Notation de := (de_string literal_eval uni uninumeric).
  Notation item := (item literal_eval uninumeric).
  Notation restorable := (restorable literal_eval uninumeric).
  Notation kept := (kept literal_eval uninumeric is_float).

  Lemma item_keys P v : item v -> all_keys P v.
  Proof. now intros []. Qed.
  Lemma restorable_keys P v : restorable v -> all_keys P v.
  Proof.
    intros [v' H|n H|s H1 H2|x w l _ Hx Hw Hl]; try exact I; [now apply item_keys|].
    apply all_keys_list. repeat constructor; try now apply item_keys.
    eapply Forall_impl; [|exact Hl]. apply item_keys.
  Qed.
  Lemma restorable_safe v t : restorable v -> clean_string v = Ok t -> value_text v t.
  Proof.
    intros H E. apply clean_value_text; [exact E|].
    destruct (clean_values v) as (t' & E' & HS); [now apply restorable_keys|]. congruence.
  Qed.

  Lemma item_value v t : item v -> value_text v t -> de t = Ok v /\ ~ In dash t /\ ~ In underscore t /\ (v <> VStr [] -> t <> []).
  Proof.
    intros H T. destruct (item_text literal_eval uni uninumeric HE v H) as (t' & E & T1 & T2 & T3 & T4).
    assert (t = t') as ->.
    { eapply value_text_fun; [exact T|]. apply restorable_safe; [now constructor|exact E]. }
    tauto.
  Qed.

  (** evaluating an item again *)
  Lemma de_value_item v : item v -> de_value literal_eval uni uninumeric v = Ok v.
  Proof.
    intros H. destruct H as [|b|n Hn|s W L N|s W0 W L]; try reflexivity. cbn [de_value].
    destruct (item_text literal_eval uni uninumeric HE (VStr s)) as (t & E & _ & _ & T & _); [now constructor|].
    cbn in E. injection E as E. destruct W as [W _]. rewrite (keep_id _ W) in E. now subst t.
  Qed.

  Lemma fuel_piece t : ~ In dash t -> ~ In underscore t ->
    de_string_fuel literal_eval uni uninumeric 2 t = de t.
  Proof.
    intros Hd Hu. unfold de_string. cbn [de_string_fuel].
    assert (H1 : has_char underscore t = false) by (apply not_true_is_false; rewrite has_char_in; exact Hu).
    assert (H2 : has_char dash t = false) by (apply not_true_is_false; rewrite has_char_in; exact Hd).
    rewrite H1, H2. reflexivity.
  Qed.

  Lemma mapM_ext_in {A B} (f g : A -> result B) l : (forall x, In x l -> f x = g x) -> mapM f l = mapM g l.
  Proof.
    induction l as [|x l IH]; intros H; [reflexivity|]. cbn. rewrite H by now left. rewrite IH by (intros; apply H; now right).
    reflexivity.
  Qed.

  (** a text with a dash and no underscore is a list of its pieces *)
  Lemma dash_facts t : Forall safe t -> In dash t -> isnumeric uninumeric t = false.
  Proof.
    intros HS Hd. unfold isnumeric. rewrite (safe_ascii _ HS). destruct t as [|c t]; [reflexivity|].
    apply not_true_is_false. rewrite forallb_forall. intros H. specialize (H dash Hd). discriminate.
  Qed.

  Lemma list_texts l t : Forall item l -> value_text (VList l) t -> exists ts, clean_list l = Ok ts /\
    t = join [dash] ts /\ Forall (fun t => ~ In dash t /\ ~ In underscore t) ts /\ mapM de ts = Ok l /\ ~ In underscore t /\
    Forall2 (fun v t => v <> VStr [] -> t <> []) l ts.
  Proof.
    intros HF T. destruct (items_text literal_eval uni uninumeric HE l HF) as (ts & E & F & M). exists ts.
    assert (ET : t = join [dash] ts).
    { eapply value_text_fun; [exact T|]. apply clean_value_text; [now rewrite clean_vlist, E|].
      destruct (clean_values (VList l)) as (t' & E' & HS).
      { apply all_keys_list. eapply Forall_impl; [|exact HF]. apply item_keys. }
      rewrite clean_vlist, E in E'. cbn in E'. injection E' as <-. exact HS. }
    split; [exact E|]. split; [exact ET|]. split; [exact F|]. split; [exact M|]. split.
    - rewrite ET. intros H. enough (G : Forall (fun c => c <> underscore) (join [dash] ts)).
      { rewrite Forall_forall in G. now apply (G _ H). }
      apply join_forall; [repeat constructor; unfold dash, underscore; lia|].
      eapply Forall_impl; [|exact F]. intros w [_ Hw]. apply Forall_forall. intros c Hc ->. contradiction.
    - clear -uni HE HF E. revert ts E. induction HF as [|v l Hv _ IH]; intros ts E.
      + cbn in E. injection E as <-. constructor.
      + rewrite clean_list_cons in E. destruct (item_text literal_eval uni uninumeric HE v Hv) as (t0 & E0 & _ & _ & _ & T0).
        rewrite E0 in E. cbn [bind] in E. destruct (clean_list l) as [ts'|]; [|discriminate]. cbn in E. injection E as <-.
        constructor; [exact T0|now apply IH].
  Qed.

  Lemma join_dash_in a b ts : In dash (join [dash] (a :: b :: ts)).
  Proof. rewrite join_cons by discriminate. rewrite !in_app_iff. right. left. now left. Qed.
  Lemma join_length a b ts : a <> [] \/ b <> [] \/ ts <> [] -> (1 <? Z.of_nat (length (join [dash] (a :: b :: ts)))) = true.
  Proof.
    intros H. apply Z.ltb_lt. rewrite join_cons by discriminate. rewrite !app_length. cbn [length].
    destruct a as [|x a]; [|cbn [length]; lia]. destruct ts as [|c ts].
    - cbn [join]. destruct b as [|y b]; [|cbn [length]; lia]. destruct H as [H|[H|H]]; contradiction.
    - rewrite join_cons by discriminate. rewrite !app_length. cbn [length]. lia.
  Qed.

  Lemma restorable_de v t : restorable v -> value_text v t ->
    (forall l, v = VList l -> literal_eval t = None) -> de t = Ok v.
  Proof.
    intros [v' H|n Hn|s (W1 & W2 & W3) L|x w l Hne Hx Hw Hl] T HL.
    - now apply item_value.
    - assert (t = str_of_int n) as ->.
      { eapply value_text_fun; [exact T|]. apply clean_value_text; [|apply safe_int]. cbn [clean_string]. now rewrite keep_id by apply safe_int. }
      unfold de_string. cbn [de_string_fuel]. destruct HE as (E1 & _). now rewrite E1.
    - assert (t = dash :: s) as ->.
      { assert (HS : Forall safe (dash :: s)) by (constructor; [apply safe_dash|exact W1]).
        eapply value_text_fun; [exact T|]. apply clean_value_text; [|exact HS]. cbn [clean_string]. now rewrite keep_id. }
      unfold de_string. cbn [de_string_fuel]. now rewrite L.
    - assert (HF : Forall item (x :: w :: l)) by (repeat constructor; assumption).
      pose proof (value_text_safe _ _ T) as TS.
      destruct (list_texts _ _ HF T) as (ts & E & ET & F & M & U & F2). specialize (HL _ eq_refl).
      inversion F2 as [|? t0 ? ? N0 F2']; subst. inversion F2' as [|? t1 ? ts' _ _]; subst.
      clear F2'.
      set (ts := t0 :: t1 :: ts') in *.
      unfold de_string. cbn [de_string_fuel]. rewrite HL, dash_facts; [|exact TS|apply join_dash_in].
      assert (H1 : has_char underscore (join [dash] ts) = false) by (apply not_true_is_false; rewrite has_char_in; exact U).
      assert (H2 : has_char dash (join [dash] ts) = true) by (apply has_char_in, join_dash_in).
      assert (H3 : (1 <? Z.of_nat (length (join [dash] ts))) = true) by (apply join_length; left; now apply N0).
      rewrite H1, H2, H3. cbn [andb].
      rewrite split_join; [|discriminate|eapply Forall_impl; [|exact F]; now intros ? [? ?]].
      change (mapM _ ts) with (mapM (de_string_fuel literal_eval uni uninumeric 2) ts).
      rewrite (mapM_ext_in _ de); [now rewrite M|]. intros u Hu. rewrite Forall_forall in F. apply F in Hu as [? ?]. now apply fuel_piece.
  Qed.

  Lemma list_de l t : Forall item l -> l <> [] -> l <> [VStr []; VStr []] ->
    (forall s, l = [VOther s] -> isnumeric uninumeric s = false) -> value_text (VList l) t ->
    field_de_string literal_eval uni uninumeric CList (VStr t) = Ok (VList l).
  Proof.
    intros HF H0 H2 HO T. pose proof (value_text_safe _ _ T) as TS.
    destruct (list_texts _ _ HF T) as (ts & E & ET & F & M & U & F2).
    assert (HM : mapM (de_value literal_eval uni uninumeric) l = Ok l).
    { rewrite (mapM_ok _ (fun x => x)); [now rewrite map_id|]. intros x Hx. apply de_value_item.
      rewrite Forall_forall in HF. now apply HF. }
    cbn [field_de_string]. unfold de_string_noeval.
    assert (H1 : has_char underscore t = false) by (apply not_true_is_false; rewrite has_char_in; exact U).
    rewrite H1.
    destruct l as [|x [|y l]]; [contradiction| |].
    - (* one element *)
      inversion HF as [|? ? Hx _]; subst. clear HF.
      inversion F2 as [|? t0 ? ? N0 F2']; subst. inversion F2'; subst. cbn [join] in *.
      inversion F as [|? ? [Fd Fu] _]; subst.
      assert (Hd : has_char dash t0 = false) by (apply not_true_is_false; rewrite has_char_in; exact Fd).
      rewrite Hd. cbn [andb]. cbn [mapM] in M. destruct (de t0) as [r|] eqn:Er; [|discriminate]. cbn [bind] in M. injection M as ->.
      rewrite clean_list_cons in E. destruct (clean_string x) as [u|] eqn:Ex; [|discriminate]. cbn in E. injection E as ->.
      destruct (isnumeric uninumeric t0) eqn:En.
      + destruct Hx as [|b|n Hn|s (W1 & _) L N|s W0 (W1 & _) L].
        * cbn in Ex. injection Ex as <-. discriminate.
        * destruct b; cbn in Ex; injection Ex as <-; discriminate.
        * cbn [clean_string] in Ex. rewrite (keep_id _ (safe_int n)) in Ex. injection Ex as <-. rewrite int_str. reflexivity.
        * cbn in Ex. injection Ex as Ex. rewrite (keep_id _ W1) in Ex. subst s. congruence.
        * cbn in Ex. injection Ex as Ex. rewrite (keep_id _ W1) in Ex. subst s. rewrite (HO t0 eq_refl) in En. discriminate.
      + cbn [bind listify mapM de_value]. rewrite Er. reflexivity.
    - inversion F2 as [|? t0 ? ? N0 F2']; subst. inversion F2' as [|? t1 ? ts' N1 F2'']; subst.
      rewrite dash_facts; [|exact TS|apply join_dash_in].
      assert (Hd : has_char dash (join [dash] (t0 :: t1 :: ts')) = true) by (apply has_char_in, join_dash_in).
      rewrite Hd, join_length.
      + cbn [andb]. rewrite split_join; [|discriminate|eapply Forall_impl; [|exact F]; now intros ? [? ?]].
        rewrite M. cbn [bind listify]. now rewrite HM.
      + destruct t0; [|left; discriminate]. destruct t1; [|right; left; discriminate].
        destruct ts' as [|t2 ts']; [|right; right; discriminate]. exfalso. inversion F2''; subst.
        apply H2. f_equal; [|f_equal].
        * destruct x as [| | |[|? ?]| | |]; try reflexivity; exfalso; apply N0; try reflexivity; discriminate.
        * destruct y as [| | |[|? ?]| | |]; try reflexivity; exfalso; apply N1; try reflexivity; discriminate.
  Qed.

  (** what comes back for a kept value *)
  Lemma kept_read f v t : kept f v -> value_text v t ->
    exists r w, (if f_positional f && f_keyword f then de t = Ok r else r = VStr t) /\
      (if match f_class f with CStr => false | _ => true end
       then field_de_string literal_eval uni uninumeric (f_class f) r = Ok w else w = r) /\
      same_value v w /\
      forall inst kw, gd_get streq kw (f_name f) = Some w ->
        set_self literal_eval uni uninumeric other_int is_float to_float to_str other_true f inst kw =
        Ok (gd_set streq inst (f_name f) (Some w)).
  Proof.
    intros (K1 & K2 & K3 & K4 & K5) T.
    (* setting a value of the right type *)
    assert (PS : convert_type uni other_int is_float to_float to_str other_true (f_class f) v = Ok v ->
      forall inst kw, gd_get streq kw (f_name f) = Some v ->
        plain_set uni other_int is_float to_float to_str other_true f inst kw = Ok (gd_set streq inst (f_name f) (Some v))).
    { intros EC inst kw EG. unfold plain_set. rewrite EG. unfold nargs_of. rewrite K2. unfold convert_val. rewrite EC. cbn [bind].
      destruct (f_choices f) as [ok|] eqn:Ec; [rewrite (K3 ok eq_refl)|]; reflexivity. }
    (* the classes that evaluate *)
    assert (PV : match f_class f with CAny | CInt | CFloat | CBool => True | _ => False end ->
      convert_type uni other_int is_float to_float to_str other_true (f_class f) v = Ok v ->
      exists r w, (if f_positional f && f_keyword f then de t = Ok r else r = VStr t) /\
      (if match f_class f with CStr => false | _ => true end
       then field_de_string literal_eval uni uninumeric (f_class f) r = Ok w else w = r) /\
      same_value v w /\
      forall inst kw, gd_get streq kw (f_name f) = Some w ->
        set_self literal_eval uni uninumeric other_int is_float to_float to_str other_true f inst kw =
        Ok (gd_set streq inst (f_name f) (Some w))).
    { intros Hcls EC. specialize (PS EC).
      assert (K5' : restorable v /\ forall l t, v = VList l -> value_text v t -> literal_eval t = None) by (destruct (f_class f); tauto).
      destruct K5' as [R RL].
      assert (ES : forall inst kw, gd_get streq kw (f_name f) = Some v ->
        set_self literal_eval uni uninumeric other_int is_float to_float to_str other_true f inst kw =
        Ok (gd_set streq inst (f_name f) (Some v))) by (unfold set_self; destruct (f_class f); try destruct Hcls; exact PS).
      assert (EF : forall r, de_value literal_eval uni uninumeric r = Ok v ->
        (if match f_class f with CStr => false | _ => true end
         then field_de_string literal_eval uni uninumeric (f_class f) r = Ok v else v = r))
        by (intros r Er; destruct (f_class f); try destruct Hcls; exact Er).
      destruct (f_positional f && f_keyword f) eqn:Epk.
      - apply andb_true_iff in Epk as [Ep Ek]. destruct (K4 Ep Ek) as [Hi _]. exists v, v.
        split; [now apply item_value|]. split; [apply EF; now apply de_value_item|]. split; [now left|exact ES].
      - exists (VStr t), v. split; [reflexivity|]. split; [apply EF; cbn [de_value]; apply restorable_de; eauto|].
        split; [now left|exact ES]. }
    unfold typed in K1. destruct (f_class f) eqn:Ec.
    - apply PV; [exact I|reflexivity].
    - destruct K1 as (s & -> & HS). assert (t = s) as ->.
      { eapply value_text_fun; [exact T|]. apply clean_value_text; [|exact HS]. cbn [clean_string]. now rewrite keep_id. }
      exists (VStr s), (VStr s). split; [|split; [reflexivity|split; [now left|]]].
      + destruct (f_positional f && f_keyword f) eqn:Epk; [|reflexivity]. apply andb_true_iff in Epk as [Ep Ek].
        destruct (K4 Ep Ek) as [Hi _]. now apply item_value.
      + unfold set_self. rewrite Ec. apply PS. reflexivity.
    - apply PV; [exact I|]. destruct K1 as [(n & ->)|(b & ->)]; reflexivity.
    - apply PV; [exact I|]. destruct K1 as (s & -> & Hs). cbn. now rewrite Hs.
    - apply PV; [exact I|]. destruct K1 as (b & ->); reflexivity.
    - destruct K1 as (l & -> & L0 & L2 & LF & LO). exists (VStr t), (VList l).
      split; [|split; [|split; [now left|]]].
      + destruct (f_positional f && f_keyword f) eqn:Epk; [|reflexivity]. apply andb_true_iff in Epk as [Ep Ek].
        destruct (K4 Ep Ek) as [_ X]. now exfalso.
      + now apply list_de.
      + intros inst kw EG. unfold set_self, list_set_self. rewrite Ec, EG. reflexivity.
    - destruct K1 as (d & -> & D0 & DN & DK). destruct T as (u & Eu & Et).
      assert (HU : Forall safe u).
      { assert (A : all_keys (fun k => k <> []) (VDict d)) by (apply clean_ok_iff; eauto).
        apply all_keys_dict in A. destruct (clean_values (VDict d)) as (u' & E' & HS).
        { apply all_keys_dict. rewrite Forall_forall in A |- *. intros [k x] Hin. destruct (A _ Hin) as [A1 _].
          destruct (DK k x Hin) as (B1 & _ & B2). cbn [fst snd] in *. split; [tauto|]. now apply restorable_keys. }
        congruence. }
      assert (t = u) as -> by (cbn in Et; rewrite (keep_id _ HU) in Et; congruence).
      destruct (deep_round literal_eval uni uninumeric HE d u D0 DN Eu) as (e & Ee & P).
      { intros k x Hin. destruct (DK k x Hin) as (_ & ? & ?). tauto. }
      exists (VStr u), (VDict e). split; [|split; [|split]].
      + destruct (f_positional f && f_keyword f) eqn:Epk; [|reflexivity]. apply andb_true_iff in Epk as [Ep Ek].
        destruct (K4 Ep Ek) as [X _]. inversion X.
      + cbn [field_de_string]. now rewrite Ee.
      + right. exists d, e. repeat split. now apply Permutation_sym.
      + intros inst kw EG. unfold set_self, keyed_set_self. rewrite Ec, EG. reflexivity.
  Qed.

  Notation set_self := (set_self literal_eval uni uninumeric other_int is_float to_float to_str other_true).
  Notation set_fields := (set_fields literal_eval uni uninumeric other_int is_float to_float to_str other_true).
  Notation from_dir_string := (from_dir_string literal_eval uni uninumeric pval_eq other_int is_float to_float to_str other_true).

  Lemma get_attr_set inst n v m : get_attr (gd_set streq inst n v) m = if streq n m then v else get_attr inst m.
  Proof.
    unfold get_attr. rewrite (get_set streq streq_spec). destruct (streq n m); [|reflexivity]. now destruct v.
  Qed.

  (** a field without value and default *)
  Lemma set_unset f inst kw : gd_get streq kw (f_name f) = None -> f_default f = None -> f_required f = false ->
    exists inst2, set_self f inst kw = Ok inst2 /\
      (forall n, n <> f_name f -> gd_get streq inst2 n = gd_get streq inst n) /\
      (f_class f <> CList -> get_attr inst (f_name f) = None -> get_attr inst2 (f_name f) = None).
  Proof.
    intros EG ED ER. unfold Structures.set_self, list_set_self, keyed_set_self, plain_set. rewrite EG, ED, ER.
    destruct (f_class f); eexists; (split; [reflexivity|]); (split; [|intros H1 H2]);
      try (intros n Hn; try reflexivity; rewrite (get_set streq streq_spec), streq_ne by congruence; reflexivity);
      try exact H2; try contradiction.
    now rewrite get_attr_set, streq_refl.
  Qed.

  Section build.
    Variable fs : list field.
    Variable inst : attrs.
    Hypothesis HC : class_ok fs.
    Hypothesis HI : inst_ok literal_eval uninumeric fs inst.
    Hypothesis HA : all_kept literal_eval uninumeric is_float fs inst.
    Variable kw : list (pystr * pval).
    Variable fin : field -> pval.
    Hypothesis HK : forall f, In f fs -> gd_get streq kw (f_name f) = fin_val inst fin f.
    Hypothesis HS : forall f v, In f fs -> shown f -> get_attr inst (f_name f) = Some v -> forall a kw,
      gd_get streq kw (f_name f) = Some (fin f) -> set_self f a kw = Ok (gd_set streq a (f_name f) (Some (fin f))).

    Lemma set_fields_ok : forall l a, incl l fs -> NoDup (map f_name l) ->
      (forall f, In f l -> get_attr a (f_name f) = None) ->
      exists a2, set_fields l kw a = Ok a2 /\
        (forall f, In f l -> shown f -> get_attr a2 (f_name f) =
           match get_attr inst (f_name f) with Some _ => Some (fin f) | None => None end) /\
        (forall n, ~ In n (map f_name l) -> gd_get streq a2 n = gd_get streq a n).
    Proof.
      induction l as [|f l IH]; intros a Hl HN Ha.
      { exists a. split; [reflexivity|]. split; [intros f []|reflexivity]. }
      assert (Hf : In f fs) by (apply Hl; now left). cbn [map] in HN. inversion HN as [|? ? N1 N2]; subst.
      assert (HX : exists a1, set_self f a kw = Ok a1 /\
        (forall n, n <> f_name f -> gd_get streq a1 n = gd_get streq a n) /\
        (shown f -> get_attr a1 (f_name f) = match get_attr inst (f_name f) with Some _ => Some (fin f) | None => None end)).
      { destruct (HA f Hf) as [A1 A2]. pose proof (HK f Hf) as EK. unfold fin_val, isset in EK.
        destruct (f_transient f) eqn:Et.
        - destruct (A2 eq_refl) as [A3 A4]. cbn [negb andb] in EK.
          destruct (set_unset f a kw EK A4 A3) as (a1 & U1 & U2 & _). exists a1. split; [exact U1|]. split; [exact U2|].
          unfold shown. congruence.
        - cbn [negb andb] in EK. destruct (get_attr inst (f_name f)) as [v|] eqn:Ev.
          + exists (gd_set streq a (f_name f) (Some (fin f))). split; [now apply (HS f v)|]. split.
            * intros n Hn. now rewrite (get_set streq streq_spec), streq_ne by congruence.
            * intros _. now rewrite get_attr_set, streq_refl.
          + destruct A1 as [A3 A4]. assert (Er : f_required f = false).
            { apply not_true_is_false. intros Er. now apply (io_req _ _ _ _ HI f Hf Et Er). }
            destruct (set_unset f a kw EK A3 Er) as (a1 & U1 & U2 & U3). exists a1. split; [exact U1|]. split; [exact U2|].
            intros _. apply U3; [now apply A4|]. apply Ha. now left. }
      destruct HX as (a1 & X1 & X2 & X3).
      destruct (IH a1) as (a2 & Y1 & Y2 & Y3).
      { intros g Hg. apply Hl. now right. }
      { exact N2. }
      { intros g Hg. unfold get_attr. rewrite X2.
        - apply (Ha g). now right.
        - intros E. apply N1. rewrite <- E. now apply in_map. }
      exists a2. split; [cbn; rewrite X1; exact Y1|]. split.
      - intros g [<-|Hg] Hs; [|now apply Y2]. rewrite <- (X3 Hs). unfold get_attr. now rewrite Y3.
      - intros n Hn. rewrite Y3 by (intros H; apply Hn; now right). apply X2. intros ->. apply Hn. now left.
    Qed.
  End build.

  Lemma inherited_other inh kw : forall a n, ~ In n inh -> gd_get streq (set_inherited inh kw a) n = gd_get streq a n.
  Proof.
    unfold set_inherited. induction inh as [|m inh IH]; intros a n N; [reflexivity|]. cbn [fold_left].
    rewrite IH by (intros H; apply N; now right). destruct (gd_get streq kw m); [|reflexivity].
    rewrite (get_set streq streq_spec), streq_ne; [reflexivity|]. intros ->. apply N. now left.
  Qed.
  Lemma inherited_set inh kw v : forall a n, In n inh \/ get_attr a n = Some v -> gd_get streq kw n = Some v ->
    get_attr (set_inherited inh kw a) n = Some v.
  Proof.
    unfold set_inherited. induction inh as [|m inh IH]; intros a n H E; cbn [fold_left].
    - destruct H as [[]|H]. exact H.
    - apply IH; [|exact E]. destruct (streq m n) eqn:Em.
      + apply streq_spec in Em. subst m. right. rewrite E. now rewrite get_attr_set, streq_refl.
      + assert (Nm : m <> n) by (intros ->; rewrite streq_refl in Em; discriminate).
        destruct H as [[H|H]|H]; [contradiction|now left|]. right. destruct (gd_get streq kw m); [|exact H].
        now rewrite get_attr_set, Em.
  Qed.

  (** the directory string depends on the texts of the fields shown *)
  Lemma stringify_ext f v w b : field_text v = field_text w -> stringify f v b = stringify f w b.
  Proof. unfold stringify. now intros ->. Qed.
  Lemma dir_ext fs a b : (forall f, In f fs -> shown f ->
      match get_attr a (f_name f), get_attr b (f_name f) with
      | Some v, Some w => field_text v = field_text w
      | None, None => True
      | _, _ => False
      end) -> get_dir_string fs a = get_dir_string fs b.
  Proof.
    intros H.
    assert (HP : pos_loop a fs = pos_loop b fs).
    { induction fs as [|f l IH]; [reflexivity|]. cbn [pos_loop]. rewrite IH by (intros g Hg; apply H; now right).
      destruct (f_transient f) eqn:Et; [reflexivity|]. cbn [orb]. destruct (negb (f_positional f)); [reflexivity|].
      specialize (H f ltac:(now left) Et). destruct (get_attr a (f_name f)), (get_attr b (f_name f)); try contradiction; [|reflexivity].
      now rewrite (stringify_ext _ _ _ _ H). }
    assert (HN : forall np args, nonpos_loop a fs np args = nonpos_loop b fs np args).
    { clear HP. induction fs as [|f l IH]; intros np args; [reflexivity|]. cbn [nonpos_loop].
      assert (IH' := IH ltac:(intros g Hg; apply H; now right)). clear IH.
      destruct (f_transient f) eqn:Et; [apply IH'|]. cbn [orb]. destruct (f_positional f); [apply IH'|].
      specialize (H f ltac:(now left) Et). destruct (get_attr a (f_name f)), (get_attr b (f_name f)); try contradiction.
      - rewrite (stringify_ext _ _ _ _ H). destruct (f_keyword f).
        + destruct (stringify f p0 false); cbn [bind]; [apply IH'|reflexivity].
        + destruct np; [reflexivity|]. destruct (stringify f p0 false); cbn [bind]; [apply IH'|reflexivity].
      - now rewrite IH'. }
    unfold get_dir_string, get_nonpos_string. now rewrite HP, HN.
  Qed.

  Lemma kept_same_text f v w : kept f v -> same_value v w -> field_text v = field_text w.
  Proof.
    intros K [->|(d & e & -> & -> & P)]; [reflexivity|]. destruct K as (K1 & _ & _ & _ & K5). unfold field_text.
    assert (E : clean_string (VDict d) = clean_string (VDict e)).
    { apply clean_order; [|exact P]. unfold typed in K1. destruct (f_class f).
      - destruct K5 as [R _]. inversion R as [? X| | |]. inversion X.
      - destruct K1 as (s & X & _). discriminate.
      - destruct K1 as [(s & X)|(s & X)]; discriminate.
      - destruct K1 as (s & X & _). discriminate.
      - destruct K1 as (s & X). discriminate.
      - destruct K1 as (s & X & _). discriminate.
      - destruct K1 as (d' & X & _ & N & _). injection X as <-. exact N. }
    now rewrite E.
  Qed.

  Theorem structure_values fs inherited inst base : class_ok fs -> inst_ok literal_eval uninumeric fs inst ->
    all_kept literal_eval uninumeric is_float fs inst -> normal_dir base ->
    (forall n, In n inherited -> ~ In n (map f_name fs)) ->
    (forall d, get_dir_string fs inst = Ok d -> contains (lit "txt") (path_ext d) = false) ->
    exists d inst2, get_dir_string fs inst = Ok d /\ from_dir_string fs inherited (path_join2 base d) = Ok inst2 /\
      (forall f, In f fs -> shown f ->
         match get_attr inst (f_name f), get_attr inst2 (f_name f) with
         | Some v, Some w => same_value v w
         | None, None => True
         | _, _ => False
         end) /\
      (In (lit "base_dir") inherited -> get_attr inst2 (lit "base_dir") = Some (VStr base)) /\
      get_dir_string fs inst2 = Ok d.
  Proof.
    intros HC HI HA (rooted & bcs & -> & HB) Hinh Hx.
    set (flat := fun f => if f_positional f && f_keyword f
                          then match de (tx inst f) with Ok r => r | Err _ => VNone end else VStr (tx inst f)).
    set (fin := fun f => if match f_class f with CStr => false | _ => true end
                         then match field_de_string literal_eval uni uninumeric (f_class f) (flat f) with Ok w => w | Err _ => VNone end
                         else flat f).
    assert (HR : forall f v, In f fs -> shown f -> get_attr inst (f_name f) = Some v ->
      (if f_positional f && f_keyword f then de (tx inst f) = Ok (flat f) else flat f = VStr (tx inst f)) /\
      (if match f_class f with CStr => false | _ => true end
       then field_de_string literal_eval uni uninumeric (f_class f) (flat f) = Ok (fin f) else fin f = flat f) /\
      same_value v (fin f) /\
      forall a kw, gd_get streq kw (f_name f) = Some (fin f) ->
        set_self f a kw = Ok (gd_set streq a (f_name f) (Some (fin f)))).
    { intros f v Hf Hs Ev. destruct (tx_spec _ _ _ _ HI f v Hf Hs Ev) as (T & _).
      destruct (HA f Hf) as [A _]. rewrite Ev in A.
      destruct (kept_read f v _ (A Hs) T) as (r & w & R1 & R2 & R3 & R4).
      assert (Efl : flat f = r).
      { unfold flat. destruct (f_positional f && f_keyword f); [now rewrite R1|now symmetry]. }
      assert (Efi : fin f = w).
      { unfold fin. rewrite Efl. destruct (match f_class f with CStr => false | _ => true end); [now rewrite R2|now symmetry]. }
      rewrite Efl, Efi. tauto. }
    assert (HS : forall f, In f fs -> shown f -> isset inst f = true -> exists v, get_attr inst (f_name f) = Some v).
    { intros f _ _ H. unfold isset in H. destruct (get_attr inst (f_name f)); [eauto|discriminate]. }
    destruct (read_ok literal_eval uni uninumeric pval_eq fs inst HC HI true flat fin) with (rooted := rooted) (bcs := bcs)
      as (d & kw & E1 & E2 & E3 & E4 & E5).
    { intros f H1 H2 H3. destruct (HS f H1 H2 H3) as (v & Ev). now destruct (HR f v H1 H2 Ev). }
    { intros f H1 H2 H3. destruct (HS f H1 H2 H3) as (v & Ev). now destruct (HR f v H1 H2 Ev) as (_ & ? & _). }
    { exact HB. }
    { exact HC. }
    { exact Hx. }
    destruct (set_fields_ok fs inst HI HA kw fin E4) with (l := fs) (a := @nil (pystr * option pval)) as (a2 & S1 & S2 & S3).
    { intros f v H1 H2 Ev. now destruct (HR f v H1 H2 Ev) as (_ & _ & _ & ?). }
    { intros f H. exact H. }
    { apply (co_names _ HC). }
    { reflexivity. }
    exists d, (set_inherited inherited kw a2). split; [exact E1|].
    assert (G : forall f, In f fs -> shown f ->
         match get_attr inst (f_name f), get_attr (set_inherited inherited kw a2) (f_name f) with
         | Some v, Some w => same_value v w
         | None, None => True
         | _, _ => False
         end).
    { intros f Hf Hs.
      assert (Eg : get_attr (set_inherited inherited kw a2) (f_name f) = get_attr a2 (f_name f)).
      { unfold get_attr. rewrite inherited_other; [reflexivity|]. intros H. apply (Hinh _ H). now apply in_map. }
      rewrite Eg, (S2 f Hf Hs). destruct (get_attr inst (f_name f)) as [v|] eqn:Ev; [|exact I].
      now destruct (HR f v Hf Hs Ev) as (_ & _ & ? & _). }
    split; [|split; [exact G|split]].
    - unfold Structures.from_dir_string. rewrite E2. cbn [bind]. unfold construct. rewrite S1. reflexivity.
    - intros H. apply inherited_set; [now left|exact E3].
    - rewrite <- E1. symmetry. apply dir_ext. intros f Hf Hs. specialize (G f Hf Hs). destruct (HA f Hf) as [A _].
      destruct (get_attr inst (f_name f)) as [v|], (get_attr (set_inherited inherited kw a2) (f_name f)) as [w|]; try exact G.
      exact (kept_same_text f v w (A Hs) G).
  Qed.

  Theorem structure_injective fs a b d : class_ok fs ->
    inst_ok literal_eval uninumeric fs a -> all_kept literal_eval uninumeric is_float fs a ->
    inst_ok literal_eval uninumeric fs b -> all_kept literal_eval uninumeric is_float fs b ->
    get_dir_string fs a = Ok d -> get_dir_string fs b = Ok d -> contains (lit "txt") (path_ext d) = false ->
    forall f, In f fs -> shown f ->
      match get_attr a (f_name f), get_attr b (f_name f) with
      | Some v, Some w => same_value v w
      | None, None => True
      | _, _ => False
      end.
  Proof.
    intros HC Ia Ka Ib Kb Ea Eb Hx f Hf Hs.
    assert (HB : normal_dir []) by (exists false, []; split; [reflexivity|constructor]).
    destruct (structure_values fs [] a [] HC Ia Ka HB) as (d1 & a2 & A1 & A2 & A3 & _); [intros n []|intros; congruence|].
    destruct (structure_values fs [] b [] HC Ib Kb HB) as (d2 & b2 & B1 & B2 & B3 & _); [intros n []|intros; congruence|].
    assert (d1 = d) as -> by congruence. assert (d2 = d) as -> by congruence.
    assert (a2 = b2) as -> by congruence. specialize (A3 f Hf Hs). specialize (B3 f Hf Hs).
    destruct (get_attr a (f_name f)), (get_attr b (f_name f)), (get_attr b2 (f_name f)); try contradiction; try exact I.
    eapply same_trans; [exact A3|now apply same_sym].
  Qed.
End values.
