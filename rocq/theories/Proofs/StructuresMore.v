(** More about Structures: the order of the fields, other spellings of a path, the constructor. *)
From Coq Require Import Permutation Sorted.
From Verif Require Import Proofs.DictFacts Proofs.ParamsFacts Proofs.StrFacts Proofs.FileNamesFacts Proofs.PyFacts
  Proofs.PathFacts Proofs.StructuresFacts Proofs.StructuresRead Proofs.StructuresTop Spec.StructureSpec.
Open Scope Z_scope.

(** ** Order *)
Lemma sorted_strings : forall l m : list pystr, Permutation l m ->
  StronglySorted (fun s t => strle s t = true) l -> StronglySorted (fun s t => strle s t = true) m -> l = m.
Proof.
  induction l as [|a l IH]; intros m HP Hl Hm.
  - apply Permutation_nil in HP. now subst.
  - destruct m as [|b m]; [now apply Permutation_sym, Permutation_nil in HP|].
    assert (E : a = b).
    { inversion Hl as [|? ? Sl Fl]; inversion Hm as [|? ? Sm Fm]; subst.
      assert (Ha : In a (b :: m)) by (eapply Permutation_in; [exact HP|now left]).
      assert (Hb : In b (a :: l)) by (eapply Permutation_in; [apply Permutation_sym; exact HP|now left]).
      destruct Ha as [E|Ha]; [now symmetry|]. destruct Hb as [E|Hb]; [exact E|].
      rewrite Forall_forall in Fl, Fm. now apply strle_antisym; [apply Fl|apply Fm]. }
    subst b. f_equal. apply IH; [now apply Permutation_cons_inv in HP|now inversion Hl|now inversion Hm].
Qed.
Lemma sort_strings l m : Permutation l m -> sort strle l = sort strle m.
Proof.
  intros H. apply sorted_strings.
  - rewrite <- (sort_perm strle l), <- (sort_perm strle m). exact H.
  - apply (sort_sorted strle strle_total strle_trans).
  - apply (sort_sorted strle strle_total strle_trans).
Qed.

Lemma nonpos_perm inst fs gs : Permutation fs gs -> forall n a b n' a', Permutation a b ->
  nonpos_loop inst fs n a = Ok (n', a') ->
  exists b', nonpos_loop inst gs n b = Ok (n', b') /\ Permutation a' b'.
Proof.
  induction 1 as [|f fs gs HP IH|f g fs|fs gs hs H1 IH1 H2 IH2]; intros n a b n' a' Hab E.
  - cbn in E |- *. injection E as <- <-. eauto.
  - cbn [nonpos_loop] in E |- *. destruct (f_transient f || f_positional f); [now apply IH with a|].
    destruct (get_attr inst (f_name f)) as [v|].
    + destruct (f_keyword f).
      * destruct (stringify f v false) as [s|e]; [|discriminate]. cbn [bind] in E |- *.
        eapply IH; [|exact E]. now apply Permutation_app_tail.
      * destruct n; [discriminate|]. destruct (stringify f v false) as [s|e]; [|discriminate]. cbn [bind] in E |- *.
        now apply IH with a.
    + destruct (f_required f); [discriminate|]. now apply IH with a.
  - assert (G : forall fs n a b n' a', Permutation a b -> nonpos_loop inst fs n a = Ok (n', a') ->
      exists b', nonpos_loop inst fs n b = Ok (n', b') /\ Permutation a' b').
    { clear. induction fs as [|f fs IH]; intros n a b n' a' Hab E; cbn [nonpos_loop] in E |- *.
      - injection E as <- <-. eauto.
      - destruct (f_transient f || f_positional f); [now apply IH with a|].
        destruct (get_attr inst (f_name f)) as [v|].
        + destruct (f_keyword f).
          * destruct (stringify f v false) as [s|e]; [|discriminate]. cbn [bind] in E |- *.
            eapply IH; [|exact E]. now apply Permutation_app_tail.
          * destruct n; [discriminate|]. destruct (stringify f v false) as [s|e]; [|discriminate]. cbn [bind] in E |- *.
            now apply IH with a.
        + destruct (f_required f); [discriminate|]. now apply IH with a. }
    cbn [nonpos_loop] in E |- *.
    destruct (f_transient f || f_positional f), (f_transient g || f_positional g); try now apply G with a.
    all: destruct (get_attr inst (f_name f)) as [v|] eqn:Ef; destruct (get_attr inst (f_name g)) as [w|] eqn:Eg;
      repeat match goal with H : context[if ?b then _ else _] |- _ => destruct b end; try discriminate;
      try discriminate;
      repeat match goal with H : context[stringify ?f ?v ?b] |- _ => destruct (stringify f v b) end;
      cbn [bind] in E |- *; try discriminate; (eapply G; [|exact E]);
      try (now apply Permutation_app_tail); try exact Hab.
    all: rewrite <- !app_assoc; cbn [app]; rewrite Hab; apply Permutation_app_head; constructor.
  - destruct (IH1 n a b n' a' Hab E) as (b1 & E1 & P1).
    destruct (IH2 n b b n' b1 (Permutation_refl b) E1) as (b2 & E2 & P2). exists b2. split; [exact E2|]. now rewrite P1.
Qed.

Lemma pos_filter inst : forall fs, pos_loop inst fs = pos_loop inst (filter f_positional fs).
Proof.
  induction fs as [|f fs IH]; [reflexivity|]. cbn [filter]. destruct (f_positional f) eqn:E; cbn [pos_loop]; rewrite ?E.
  - now rewrite IH.
  - cbn [negb]. now rewrite orb_true_r.
Qed.

Theorem fields_order inst fs gs d : Permutation fs gs -> filter f_positional fs = filter f_positional gs ->
  get_dir_string fs inst = Ok d -> get_dir_string gs inst = Ok d.
Proof.
  intros HP HF. unfold get_dir_string. rewrite (pos_filter inst fs), (pos_filter inst gs), HF.
  destruct (pos_loop inst (filter f_positional gs)) as [args|e]; [|discriminate]. cbn [bind].
  unfold get_nonpos_string. destruct (nonpos_loop inst fs None []) as [[n a]|e] eqn:E; [|discriminate].
  destruct (nonpos_perm inst fs gs HP None [] [] n a (perm_nil _) E) as (b & -> & Pab). cbn [bind].
  now rewrite (sort_strings a b Pab).
Qed.

(** ** Spellings *)
Lemma norm_filter rooted : forall cs acc,
  norm_comps rooted acc cs = norm_comps rooted acc (filter (fun c => negb (streq c [] || streq c [dot])) cs).
Proof.
  induction cs as [|c cs IH]; intros acc; [reflexivity|]. cbn [norm_comps filter].
  destruct (streq c [] || streq c [dot]) eqn:E; cbn [negb]; [apply IH|]. cbn [norm_comps]. rewrite E.
  destruct (streq c [dot; dot]); cbn [negb]; [|apply IH]. destruct acc as [|a acc]; [destruct rooted; apply IH|].
  destruct (streq a [dot; dot]); apply IH.
Qed.
Lemma norm_spelled rooted comps p : Forall plain comps -> comps <> [] -> spells rooted comps p ->
  normpath p = path_text rooted comps.
Proof.
  intros HF Hne [HS HR]. unfold components in HS.
  assert (EN : norm_comps rooted [] (split slash p) = comps).
  { rewrite norm_filter, HS, norm_plain by exact HF. reflexivity. }
  destruct (join_first comps HF Hne) as (a & s & EJ & _).
  destruct rooted.
  - destruct HR as (q & -> & Hq). unfold normpath.
    assert (Esl : (match slash :: q with
                   | a :: b :: c :: _ => if a =? slash then (if (b =? slash) && negb (c =? slash) then 2%nat else 1%nat) else 0%nat
                   | [a; b] => if a =? slash then (if b =? slash then 2%nat else 1%nat) else 0%nat
                   | [a] => if a =? slash then 1%nat else 0%nat
                   | [] => 0%nat
                   end) = 1%nat).
    { destruct q as [|b [|c q]]; cbn in Hq |- *; rewrite ?Hq; reflexivity. }
    rewrite Esl. cbn [Nat.eqb negb repeat app]. rewrite EN. reflexivity.
  - destruct p as [|b p]; [cbn in HS; congruence|]. cbn in HR. unfold normpath.
    assert (Esl : (match b :: p with
                   | a :: b :: c :: _ => if a =? slash then (if (b =? slash) && negb (c =? slash) then 2%nat else 1%nat) else 0%nat
                   | [a; b] => if a =? slash then (if b =? slash then 2%nat else 1%nat) else 0%nat
                   | [a] => if a =? slash then 1%nat else 0%nat
                   | [] => 0%nat
                   end) = 0%nat).
    { destruct p as [|c [|e p]]; rewrite HR; reflexivity. }
    rewrite Esl. cbn [Nat.eqb negb repeat app]. rewrite EN, EJ. unfold path_text. cbn [app]. now rewrite EJ.
Qed.
Lemma spells_itself rooted comps : Forall plain comps -> comps <> [] -> normpath (path_text rooted comps) = path_text rooted comps.
Proof. apply norm_path. Qed.

Theorem any_spelling literal_eval uni uninumeric pval_eq fs deep rooted comps p :
  Forall plain comps -> comps <> [] -> spells rooted comps p ->
  contains (lit "txt") (path_ext p) = false -> contains (lit "txt") (path_ext (path_text rooted comps)) = false ->
  params_from_dir_string literal_eval uni uninumeric pval_eq fs deep p =
  params_from_dir_string literal_eval uni uninumeric pval_eq fs deep (path_text rooted comps).
Proof.
  intros HF Hne HS H1 H2. unfold params_from_dir_string. rewrite H1, H2.
  now rewrite (norm_spelled rooted comps p HF Hne HS), norm_path.
Qed.

(** ** The constructor *)
Section constructor.
  Variable literal_eval : pystr -> option pval.
  Variable uni : pystr -> option Z.
  Variable uninumeric : pystr -> bool.
  Variable other_int : pystr -> option Z.
  Variable is_float : pystr -> bool.
  Variable to_float : pval -> option pval.
  Variable to_str : pval -> pystr.
  Variable other_true : pystr -> bool.
  Hypothesis float_class : forall v w, to_float v = Some w -> of_class is_float CFloat w.
  Notation convert_type := (convert_type uni other_int is_float to_float to_str other_true).
  Notation convert_val := (convert_val uni other_int is_float to_float to_str other_true).
  Notation plain_set := (plain_set uni other_int is_float to_float to_str other_true).
  Notation set_self := (set_self literal_eval uni uninumeric other_int is_float to_float to_str other_true).
  Notation set_fields := (set_fields literal_eval uni uninumeric other_int is_float to_float to_str other_true).
  Notation construct := (construct literal_eval uni uninumeric other_int is_float to_float to_str other_true).
  Notation of_class := (of_class is_float).
  Notation valid := (valid is_float).

  Lemma convert_class c v w : convert_type c v = Ok w -> of_class c w.
  Proof.
    destruct c; cbn.
    - exact (fun _ => I).
    - destruct v; intros E; injection E as <-; eauto.
    - destruct v as [|b|n|s|s|l|d]; try discriminate; intros E.
      + injection E as <-. eauto.
      + injection E as <-. eauto.
      + destruct (int_of_str uni s); [|discriminate]. injection E as <-. eauto.
      + destruct (other_int s); [|discriminate]. injection E as <-. eauto.
    - destruct v as [|b|n|s|s|l|d]; intros E.
      5: { destruct (is_float s) eqn:F; [injection E as <-; eauto|].
           destruct (to_float (VOther s)) as [x|] eqn:T; [|discriminate]. injection E as <-. exact (float_class _ _ T). }
      all: match type of E with context[to_float ?x] => destruct (to_float x) as [y|] eqn:T; [|discriminate] end;
        injection E as <-; exact (float_class _ _ T).
    - destruct v; intros E; injection E as <-; eauto.
    - exact (fun _ => I).
    - exact (fun _ => I).
  Qed.
  Lemma convert_keeps c v : of_class c v -> convert_type c v = Ok v.
  Proof.
    destruct c; cbn; try reflexivity.
    - intros (s & ->). reflexivity.
    - intros [(n & ->) | (b & ->)]; reflexivity.
    - intros (s & -> & H). now rewrite H.
    - intros (b & ->). reflexivity.
  Qed.
  Lemma convert_valid f v w : convert_val f v = Ok w -> of_class (f_class f) w /\ choice_ok f w.
  Proof.
    unfold Structures.convert_val. destruct (convert_type (f_class f) v) as [x|e] eqn:E; [|discriminate]. cbn [bind].
    unfold choice_ok. destruct (f_choices f) as [ok|].
    - destruct (ok x) eqn:K; [|discriminate]. intros H. injection H as <-. split; [now apply convert_class in E|].
      intros ok' [= <-]. exact K.
    - intros H. injection H as <-. split; [now apply convert_class in E|discriminate].
  Qed.
  Lemma convert_valid_keeps f v : of_class (f_class f) v -> choice_ok f v -> convert_val f v = Ok v.
  Proof.
    intros H1 H2. unfold Structures.convert_val. rewrite convert_keeps by exact H1. cbn [bind].
    destruct (f_choices f) as [ok|] eqn:E; [|reflexivity]. now rewrite (H2 ok E).
  Qed.

  (** what one field does: the value it sets, if any *)
  Definition field_value (f : field) (kw : list (pystr * pval)) : result (option (option pval)) :=
    do a <- set_self f [] kw; Ok (match a with [] => None | (_, v) :: _ => Some v end).

  Lemma set_self_value f inst kw : set_self f inst kw =
    (do o <- field_value f kw; Ok (match o with None => inst | Some v => gd_set streq inst (f_name f) v end)).
  Proof.
    unfold field_value, Structures.set_self. destruct (f_class f);
      unfold Structures.plain_set, list_set_self, keyed_set_self;
      destruct (match gd_get streq kw (f_name f) with Some v => Some v | None => f_default f end) as [v|];
      try (destruct (f_required f); reflexivity).
    all: try match goal with |- context[bind ?x _] => destruct x as [y|e]; reflexivity end.
    destruct v; try reflexivity.
    match goal with |- context[bind ?x _] => destruct x as [y|e]; reflexivity end.
  Qed.

  Lemma field_plain f kw o : plain_class (f_class f) -> field_value f kw = Ok o ->
    match given f kw with
    | None => f_required f = false /\ o = None
    | Some v => exists w, o = Some (Some w) /\ valid f w
    end.
  Proof.
    intros [P1 P2]. unfold field_value.
    assert (E : forall inst, set_self f inst kw = plain_set f inst kw) by (intros; unfold Structures.set_self; destruct (f_class f); congruence).
    rewrite E. unfold Structures.plain_set, given.
    destruct (match gd_get streq kw (f_name f) with Some v => Some v | None => f_default f end) as [v|].
    - unfold StructureSpec.valid, nargs_of.
      assert (K : forall n, n <> NNum 0 -> (forall y, (do l <- mapM (convert_val f) (listify v);
           match n with NNum k => if Z.of_nat (length l) <? k then Err TypeError else Ok (VList (slice_to l k)) | _ => Ok (VList l) end) = Ok y ->
         exists l, y = VList l /\ Forall (fun x => of_class (f_class f) x /\ choice_ok f x) l /\
                forall k, n = NNum k -> 0 < k -> Z.of_nat (length l) = k)).
      { intros n Hn y. destruct (mapM (convert_val f) (listify v)) as [l|e] eqn:M; [|discriminate]. cbn [bind].
        assert (HF : Forall (fun x => of_class (f_class f) x /\ choice_ok f x) l).
        { apply mapM_inv in M. clear -M float_class. induction M as [|x y l l' H M IH]; constructor; [|exact IH].
          now apply convert_valid in H. }
        destruct n as [ | | |k]; [intros X; injection X as <-; exists l; split; [reflexivity|split; [exact HF|discriminate]]..|].
        destruct (Z.ltb_spec (Z.of_nat (length l)) k) as [L|L]; [discriminate|]. intros X. injection X as <-.
        exists (slice_to l k). split; [reflexivity|]. split.
        - unfold slice_to. rewrite Forall_forall in HF |- *. intros x Hx. apply HF.
          rewrite <- (firstn_skipn (slice_start l k) l). apply in_or_app. now left.
        - intros k' [= <-] Hk. unfold slice_to. rewrite firstn_length. unfold slice_start.
          destruct (Z.ltb_spec k 0); lia. }
      destruct (f_nargs f) as [n|].
      + destruct n as [ | | |k].
        1-3: intros X; match type of X with context[bind (mapM ?g ?l)] => destruct (mapM g l) as [l1|e] eqn:M; [|discriminate X] end.
        * specialize (K NPlus ltac:(discriminate) (VList l1)). cbn in X, K. injection X as <-. eauto.
        * specialize (K NStar ltac:(discriminate) (VList l1)). cbn in X, K. injection X as <-. eauto.
        * specialize (K NQuery ltac:(discriminate) (VList l1)). cbn in X, K. injection X as <-. eauto.
        * destruct k as [|k|k].
          -- destruct (convert_val f v) as [w|e] eqn:C; [|discriminate]. cbn. intros X. injection X as <-.
             exists w. split; [reflexivity|now apply convert_valid in C].
          -- specialize (K (NNum (Z.pos k)) ltac:(discriminate)).
             destruct (mapM (convert_val f) (listify v)) as [l1|e]; [|intros X; discriminate X]. cbn [bind] in K |- *.
             destruct (Z.of_nat (length l1) <? Z.pos k); [intros X; discriminate X|]. cbn [bind gd_set]. intros X. injection X as <-.
             exists (VList (slice_to l1 (Z.pos k))). split; [reflexivity|]. now apply K.
          -- specialize (K (NNum (Z.neg k)) ltac:(discriminate)).
             destruct (mapM (convert_val f) (listify v)) as [l1|e]; [|intros X; discriminate X]. cbn [bind] in K |- *.
             destruct (Z.of_nat (length l1) <? Z.neg k); [intros X; discriminate X|]. cbn [bind gd_set]. intros X. injection X as <-.
             exists (VList (slice_to l1 (Z.neg k))). split; [reflexivity|]. now apply K.
      + destruct (convert_val f v) as [w|e] eqn:C; [|discriminate]. cbn. intros X. injection X as <-.
        exists w. split; [reflexivity|now apply convert_valid in C].
    - destruct (f_required f); [discriminate|]. cbn. intros X. injection X as <-. now split.
  Qed.

  (** ** All fields *)
  Lemma set_fields_spec : forall fs kw inst inst2, NoDup (map f_name fs) -> set_fields fs kw inst = Ok inst2 ->
    (forall f, In f fs -> exists o, field_value f kw = Ok o /\
       gd_get streq inst2 (f_name f) = match o with Some v => Some v | None => gd_get streq inst (f_name f) end) /\
    (forall n, ~ In n (map f_name fs) -> gd_get streq inst2 n = gd_get streq inst n).
  Proof.
    induction fs as [|f fs IH]; intros kw inst inst2 HN E; cbn [Structures.set_fields] in E.
    - injection E as <-. split; [intros f []|reflexivity].
    - rewrite set_self_value in E. destruct (field_value f kw) as [o|e] eqn:V; [|discriminate]. cbn [bind] in E.
      inversion HN as [|? ? N1 N2]; subst. destruct (IH kw _ inst2 N2 E) as [H1 H2].
      assert (G : forall n, gd_get streq (match o with None => inst | Some v => gd_set streq inst (f_name f) v end) n =
        match o with Some v => if streq (f_name f) n then Some v else gd_get streq inst n | None => gd_get streq inst n end).
      { intros n. destruct o as [v|]; [|reflexivity]. apply (get_set streq streq_spec). }
      assert (R : streq (f_name f) (f_name f) = true) by now apply streq_spec.
      split.
      + intros g [<- | Hg].
        * exists o. split; [exact V|]. rewrite H2 by exact N1. rewrite G. destruct o; [now rewrite R|reflexivity].
        * destruct (H1 g Hg) as (p & Ep & Eg). exists p. split; [exact Ep|]. rewrite Eg, G.
          destruct p; [reflexivity|]. destruct o as [v|]; [|reflexivity].
          destruct (streq (f_name f) (f_name g)) eqn:Q; [|reflexivity]. apply streq_spec in Q. exfalso. apply N1.
          rewrite Q. now apply in_map.
      + intros n Hn. cbn [map In] in Hn. rewrite H2 by tauto. rewrite G. destruct o; [|reflexivity].
        destruct (streq (f_name f) n) eqn:Q; [|reflexivity]. apply streq_spec in Q. tauto.
  Qed.

  Theorem construct_valid fs inherited kw inst : NoDup (map f_name fs) ->
    (forall n, In n inherited -> ~ In n (map f_name fs)) -> construct fs inherited kw = Ok inst ->
    forall f, In f fs -> plain_class (f_class f) ->
    match given f kw, get_attr inst (f_name f) with
    | Some _, Some w => valid f w
    | None, None => f_required f = false
    | _, _ => False
    end.
  Proof.
    intros HN HI E f Hf HP. unfold Structures.construct in E.
    destruct (set_fields fs kw []) as [a|e] eqn:S; [|discriminate]. cbn [bind] in E. injection E as <-.
    destruct (set_fields_spec fs kw [] a HN S) as [H1 _]. destruct (H1 f Hf) as (o & V & G).
    apply field_plain in V; [|exact HP].
    assert (Eg : get_attr (set_inherited inherited kw a) (f_name f) = get_attr a (f_name f)).
    { unfold get_attr. rewrite inherited_other; [reflexivity|]. intros H. apply (HI _ H). now apply in_map. }
    rewrite Eg. unfold get_attr. rewrite G. destruct (given f kw).
    - destruct V as (w & -> & V). exact V.
    - destruct V as (V & ->). exact V.
  Qed.

  Lemma missing_field f kw : given f kw = None -> f_required f = true -> exists e, field_value f kw = Err e.
  Proof.
    unfold given, field_value, Structures.set_self. intros E R.
    destruct (f_class f); unfold Structures.plain_set, list_set_self, keyed_set_self; rewrite E, R; cbn; eauto.
  Qed.
  Lemma set_fields_fails f kw e : field_value f kw = Err e -> forall fs inst, In f fs -> exists e', set_fields fs kw inst = Err e'.
  Proof.
    intros V. induction fs as [|g fs IH]; intros inst; [intros []|]. cbn [Structures.set_fields]. rewrite set_self_value.
    intros [-> | H]; [rewrite V; cbn; eauto|]. destruct (field_value g kw); cbn [bind]; eauto.
  Qed.
  Theorem construct_missing fs inherited kw f : In f fs -> given f kw = None -> f_required f = true ->
    exists e, construct fs inherited kw = Err e.
  Proof.
    intros Hf G R. destruct (missing_field f kw G R) as (e & V). destruct (set_fields_fails f kw e V fs [] Hf) as (e' & S).
    unfold Structures.construct. rewrite S. cbn. eauto.
  Qed.
  Theorem construct_choice fs inherited kw f v ok : In f fs -> plain_class (f_class f) -> nargs_of f = None ->
    given f kw = Some v -> of_class (f_class f) v -> f_choices f = Some ok -> ok v = false ->
    exists e, construct fs inherited kw = Err e.
  Proof.
    intros Hf [P1 P2] Hn G C Hc Hv.
    assert (V : field_value f kw = Err TypeError).
    { unfold field_value. replace (set_self f [] kw) with (plain_set f [] kw) by (unfold Structures.set_self; destruct (f_class f); congruence).
      unfold given in G. unfold Structures.plain_set. rewrite G, Hn. unfold Structures.convert_val.
      rewrite convert_keeps by exact C. cbn [bind]. rewrite Hc, Hv. reflexivity. }
    destruct (set_fields_fails f kw _ V fs [] Hf) as (e' & S).
    unfold Structures.construct. rewrite S. cbn. eauto.
  Qed.

  (** ** Values that are fine already *)
  Lemma mapM_keeps f : forall l, Forall (fun x => of_class (f_class f) x /\ choice_ok f x) l -> mapM (convert_val f) l = Ok l.
  Proof.
    induction 1 as [|x l [H1 H2] HF IH]; [reflexivity|]. cbn [mapM]. rewrite convert_valid_keeps by assumption.
    cbn [bind]. now rewrite IH.
  Qed.
  Lemma valid_kept f kw v : (forall k, f_nargs f = Some (NNum k) -> 0 <= k) -> plain_class (f_class f) -> gd_get streq kw (f_name f) = Some v -> valid f v ->
    field_value f kw = Ok (Some (Some v)).
  Proof.
    clear float_class. intros HU [P1 P2] G V. unfold field_value.
    replace (set_self f [] kw) with (plain_set f [] kw) by (unfold Structures.set_self; destruct (f_class f); congruence).
    unfold Structures.plain_set. rewrite G. unfold StructureSpec.valid in V. unfold nargs_of.
    destruct (f_nargs f) as [n|]; [|now rewrite convert_valid_keeps by tauto].
    destruct n as [ | | |k]; try (destruct V as (l & -> & HF & _); cbn [listify]; now rewrite mapM_keeps by exact HF).
    destruct k as [|k|k]; [now rewrite convert_valid_keeps by tauto| |].
    - destruct V as (l & -> & HF & HL). cbn [listify]. rewrite mapM_keeps by exact HF. cbn [bind].
      specialize (HL _ eq_refl eq_refl). replace (Z.of_nat (length l) <? Z.pos k) with false by (symmetry; apply Z.ltb_ge; lia).
      cbn [bind gd_set]. repeat f_equal. unfold slice_to. apply firstn_all2. unfold slice_start. cbn. lia.
    - specialize (HU _ eq_refl). lia.
  Qed.

  (** the fields written into the instance again *)
  Definition unsigned (f : field) : Prop := forall k, f_nargs f = Some (NNum k) -> 0 <= k.

  Lemma text_list_value s v : field_de_string literal_eval uni uninumeric CList (VStr s) = Ok v -> exists l, v = VList l.
  Proof.
    cbn. destruct (de_string_noeval literal_eval uni uninumeric s) as [x|]; [|discriminate]. cbn.
    destruct (mapM _ (listify x)); [|discriminate]. cbn. intros E. injection E as <-. eauto.
  Qed.

  (** a field given what it holds already holds it again *)
  Lemma field_again f kw kw2 o : unsigned f -> field_value f kw = Ok o ->
    gd_get streq kw2 (f_name f) = match o with Some (Some v) => Some v | _ => None end ->
    f_default f = None \/ o <> None /\ o <> Some None ->
    exists o2, field_value f kw2 = Ok o2 /\
      match o with Some (Some v) => o2 = Some (Some v) | _ => o2 = o end.
  Proof.
    intros U V G D. destruct (f_class f) eqn:Ec.
    1-5: assert (P : plain_class (f_class f)) by (rewrite Ec; split; discriminate);
      pose proof (field_plain f kw o P V) as H; unfold given in H at 1;
      destruct (match gd_get streq kw (f_name f) with Some v => Some v | None => f_default f end) as [v|] eqn:E;
      [destruct H as (w & -> & W); exists (Some (Some w)); split; [now apply valid_kept|reflexivity]
      |destruct H as (R & ->); exists None; split; [|reflexivity];
       destruct D as [D|[D _]]; [|contradiction];
       unfold field_value, Structures.set_self; rewrite Ec; unfold Structures.plain_set; rewrite G, D, R; reflexivity].
    - unfold field_value, Structures.set_self in V |- *. rewrite Ec in V |- *. unfold list_set_self in V |- *.
      destruct (match gd_get streq kw (f_name f) with Some v => Some v | None => f_default f end) as [v|] eqn:E.
      + assert (H : exists w, o = Some (Some w) /\ ((exists l, w = VList l) \/ exists d, w = VDict d)).
        { destruct v as [|b|n|s|s|l|d]; try (cbn in V; injection V as <-; eexists; split; [reflexivity|eauto]).
          destruct (field_de_string literal_eval uni uninumeric CList (VStr s)) as [w|] eqn:W; [|discriminate V].
          cbn in V. injection V as <-. apply text_list_value in W. eauto. }
        destruct H as (w & -> & [[l ->] | [d ->]]); rewrite G; cbn; eauto.
      + destruct (f_required f); [discriminate|]. cbn in V. injection V as <-. rewrite G. cbn. eauto.
    - unfold field_value, Structures.set_self in V |- *. rewrite Ec in V |- *. unfold keyed_set_self in V |- *.
      destruct (match gd_get streq kw (f_name f) with Some v => Some v | None => f_default f end) as [v|] eqn:E.
      + destruct v as [|b|n|s|s|l|d]; try (cbn in V; injection V as <-; rewrite G; cbn; now eauto).
        * destruct (split_params literal_eval uni uninumeric s) as [d|]; [|discriminate V]. cbn in V. injection V as <-.
          rewrite G. cbn. eauto.
        * destruct (mapM (fun v => match v with VStr s => Ok s | _ => Err TypeError end) l) as [ss|e] eqn:M.
          -- destruct (split_params literal_eval uni uninumeric (join [underscore] ss)) as [d|]; [|discriminate V].
             cbn in V. injection V as <-. rewrite G. cbn. eauto.
          -- cbn in V. injection V as <-. rewrite G. cbn [bind]. rewrite M. cbn. eauto.
      + destruct (f_required f) eqn:R; [discriminate|]. cbn in V. injection V as <-. rewrite G.
        destruct D as [-> | [_ D]]; [|contradiction]. cbn. eauto.
  Qed.

  Lemma field_default f kw o : field_value f kw = Ok o -> f_default f = None \/ exists v, o = Some (Some v).
  Proof.
    intros V. destruct (f_default f) as [d|] eqn:D; [right|now left]. revert V. unfold field_value, Structures.set_self.
    destruct (f_class f); unfold Structures.plain_set, list_set_self, keyed_set_self; rewrite D;
      destruct (gd_get streq kw (f_name f)) as [v|].
    all: try (match goal with |- context[bind (bind ?x _) _] => destruct x as [y|e]; [|discriminate] end; cbn; intros X; injection X as <-; now eauto).
    all: try (destruct v; try (cbn; intros X; injection X as <-; now eauto)).
    all: try (destruct d; try (cbn; intros X; injection X as <-; now eauto)).
    all: match goal with |- context[bind (bind ?x _) _] => destruct x as [y|e]; [|discriminate] end; cbn; intros X; injection X as <-; now eauto.
  Qed.

  Lemma set_fields_all kw : forall fs inst, (forall f, In f fs -> exists o, field_value f kw = Ok o) ->
    exists inst2, set_fields fs kw inst = Ok inst2.
  Proof.
    induction fs as [|f fs IH]; intros inst H; cbn [Structures.set_fields]; [eauto|]. rewrite set_self_value.
    destruct (H f (or_introl eq_refl)) as (o & ->). cbn [bind]. apply IH. intros g Hg. apply H. now right.
  Qed.
  Lemma set_fields_nodup kw : forall fs inst inst2, set_fields fs kw inst = Ok inst2 ->
    NoDup (map fst inst) -> NoDup (map fst inst2).
  Proof.
    induction fs as [|f fs IH]; intros inst inst2 E HN; cbn [Structures.set_fields] in E; [now injection E as <-|].
    rewrite set_self_value in E. destruct (field_value f kw) as [o|]; [|discriminate]. cbn [bind] in E.
    apply IH in E; [exact E|]. destruct o; [|exact HN]. now apply (set_nodup streq streq_spec).
  Qed.
  Lemma inherited_get kw : forall inh a n, get_attr (set_inherited inh kw a) n =
    if existsb (streq n) inh then match gd_get streq kw n with Some v => Some v | None => get_attr a n end else get_attr a n.
  Proof.
    induction inh as [|m inh IH]; intros a n; [reflexivity|]. unfold set_inherited in IH |- *. cbn [fold_left existsb].
    rewrite IH. clear IH. destruct (streq n m) eqn:E; cbn [orb].
    - apply streq_spec in E as <-. assert (R : streq n n = true) by now apply streq_spec.
      destruct (gd_get streq kw n) as [v|]; [|now destruct (existsb (streq n) inh)].
      rewrite get_attr_set, R. now destruct (existsb (streq n) inh).
    - assert (E2 : streq m n = false).
      { destruct (streq m n) eqn:Q; [|reflexivity]. apply streq_spec in Q as ->. now rewrite (proj2 (streq_spec n n) eq_refl) in E. }
      destruct (gd_get streq kw m) as [v|]; [|reflexivity]. now rewrite get_attr_set, E2.
  Qed.
  Lemma inherited_nodup kw : forall inh a, NoDup (map fst a) -> NoDup (map fst (set_inherited inh kw a)).
  Proof.
    induction inh as [|m inh IH]; intros a HN; [exact HN|]. unfold set_inherited in IH |- *. cbn [fold_left]. apply IH.
    destruct (gd_get streq kw m); [|exact HN]. now apply (set_nodup streq streq_spec).
  Qed.
  Lemma as_keywords_in n : forall inst, In n (map fst (as_keywords inst)) -> In n (map fst inst).
  Proof.
    induction inst as [|[m [v|]] inst IH]; cbn; [tauto| |]; intros H; [|right; now apply IH].
    destruct H as [H|H]; [now left|right; now apply IH].
  Qed.
  Lemma get_none {A} (d : list (pystr * A)) n : ~ In n (map fst d) -> gd_get streq d n = None.
  Proof.
    induction d as [|[m v] d IH]; cbn; [reflexivity|]. intros H. destruct (streq m n) eqn:E; [|apply IH; tauto].
    apply streq_spec in E. tauto.
  Qed.
  Lemma as_keywords_get n : forall inst, NoDup (map fst inst) -> gd_get streq (as_keywords inst) n = get_attr inst n.
  Proof.
    unfold get_attr. induction inst as [|[m [v|]] inst IH]; cbn; [reflexivity| |]; intros HN; inversion HN as [|? ? N1 N2]; subst.
    - destruct (streq m n); [reflexivity|now apply IH].
    - rewrite IH by exact N2. destruct (streq m n) eqn:E; [|reflexivity]. apply streq_spec in E as <-.
      now rewrite get_none.
  Qed.

  Theorem construct_again fs inherited kw inst : NoDup (map f_name fs) -> Forall unsigned fs ->
    (forall n, In n inherited -> ~ In n (map f_name fs)) -> construct fs inherited kw = Ok inst ->
    exists inst2, construct fs inherited (as_keywords inst) = Ok inst2 /\ forall n, get_attr inst2 n = get_attr inst n.
  Proof.
    intros HN HU HI E. unfold Structures.construct in E |- *.
    destruct (set_fields fs kw []) as [a|e] eqn:S; [|discriminate]. cbn [bind] in E. injection E as <-.
    set (inst := set_inherited inherited kw a).
    assert (NDa : NoDup (map fst a)) by (apply (set_fields_nodup kw fs [] a S); constructor).
    assert (ND : NoDup (map fst inst)) by now apply inherited_nodup.
    destruct (set_fields_spec fs kw [] a HN S) as [H1 H2].
    assert (Out : forall n, In n (map f_name fs) -> existsb (streq n) inherited = false).
    { intros n Hn. destruct (existsb (streq n) inherited) eqn:X; [|reflexivity]. apply existsb_exists in X as (m & Hm & X).
      apply streq_spec in X as <-. exfalso. now apply (HI n). }
    assert (HV : forall f, In f fs -> exists o o2, field_value f kw = Ok o /\ field_value f (as_keywords inst) = Ok o2 /\
       match o with Some (Some v) => o2 = Some (Some v) | _ => o2 = o end /\
       get_attr a (f_name f) = match o with Some (Some v) => Some v | _ => None end).
    { intros f Hf. destruct (H1 f Hf) as (o & V & G).
      assert (Ga : get_attr a (f_name f) = match o with Some (Some v) => Some v | _ => None end).
      { unfold get_attr. rewrite G. destruct o as [[v|]|]; reflexivity. }
      destruct (field_again f kw (as_keywords inst) o) as (o2 & V2 & R).
      - rewrite Forall_forall in HU. now apply HU.
      - exact V.
      - rewrite as_keywords_get by exact ND. unfold inst. rewrite inherited_get, Out by now apply in_map. exact Ga.
      - destruct (field_default f kw o V) as [D|[v ->]]; [now left|right; split; discriminate].
      - exists o, o2. tauto. }
    destruct (set_fields_all (as_keywords inst) fs []) as (b & Sb).
    { intros f Hf. destruct (HV f Hf) as (o & o2 & _ & V & _). eauto. }
    rewrite Sb. cbn [bind]. exists (set_inherited inherited (as_keywords inst) b). split; [reflexivity|].
    destruct (set_fields_spec fs (as_keywords inst) [] b HN Sb) as [B1 B2].
    assert (Eab : forall n, get_attr b n = get_attr a n).
    { intros n. destruct (in_dec (list_eq_dec Z.eq_dec) n (map f_name fs)) as [Hn|Hn].
      - apply in_map_iff in Hn as (f & <- & Hf). destruct (HV f Hf) as (o & o2 & V1 & V2 & R & Ga).
        destruct (B1 f Hf) as (o3 & V3 & G3). rewrite V2 in V3. injection V3 as <-. rewrite Ga. unfold get_attr. rewrite G3.
        destruct o as [[v|]|]; rewrite R; reflexivity.
      - unfold get_attr. now rewrite B2, H2 by exact Hn. }
    intros n. rewrite inherited_get, as_keywords_get by exact ND. rewrite Eab. unfold inst. rewrite inherited_get.
    destruct (existsb (streq n) inherited); [|reflexivity]. destruct (gd_get streq kw n); [reflexivity|].
    now destruct (get_attr a n).
  Qed.
End constructor.

Section more.
  Variable literal_eval : pystr -> option pval.
  Variable uni : pystr -> option Z.
  Variable uninumeric : pystr -> bool.
  Variable other_int : pystr -> option Z.
  Variable is_float : pystr -> bool.
  Variable to_float : pval -> option pval.
  Variable to_str : pval -> pystr.
  Variable other_true : pystr -> bool.
  Notation construct := (construct literal_eval uni uninumeric other_int is_float to_float to_str other_true).

  Theorem construct_kept fs inherited kw inst : NoDup (map f_name fs) ->
    (forall n, In n inherited -> ~ In n (map f_name fs)) -> construct fs inherited kw = Ok inst ->
    forall f v, In f fs -> plain_class (f_class f) -> (forall k, f_nargs f = Some (NNum k) -> 0 <= k) ->
    gd_get streq kw (f_name f) = Some v -> valid is_float f v -> get_attr inst (f_name f) = Some v.
  Proof.
    intros HN HI E f v Hf HP HU G V. unfold Structures.construct in E.
    destruct (set_fields literal_eval uni uninumeric other_int is_float to_float to_str other_true fs kw []) as [a|e] eqn:S; [|discriminate].
    cbn [bind] in E. injection E as <-.
    destruct (set_fields_spec _ _ _ _ _ _ _ _ fs kw [] a HN S) as [H1 _]. destruct (H1 f Hf) as (o & W & Eo).
    rewrite (valid_kept _ _ _ _ _ _ _ _ f kw v HU HP G V) in W. injection W as <-.
    rewrite inherited_get. unfold get_attr. rewrite Eo.
    destruct (existsb (streq (f_name f)) inherited) eqn:X; [|reflexivity]. apply existsb_exists in X as (m & Hm & X).
    apply streq_spec in X as <-. exfalso. apply (HI _ Hm). now apply in_map.
  Qed.

  Theorem construct_inherited fs inherited kw inst : NoDup (map f_name fs) -> construct fs inherited kw = Ok inst ->
    (forall n v, In n inherited -> gd_get streq kw n = Some v -> get_attr inst n = Some v) /\
    (forall n, get_attr inst n <> None -> In n (map f_name fs) \/ In n inherited).
  Proof.
    intros HN E. unfold Structures.construct in E.
    destruct (set_fields literal_eval uni uninumeric other_int is_float to_float to_str other_true fs kw []) as [a|e] eqn:S; [|discriminate].
    cbn [bind] in E. injection E as <-.
    destruct (set_fields_spec _ _ _ _ _ _ _ _ fs kw [] a HN S) as [_ H2]. split.
    - intros n v Hn G. rewrite inherited_get, G. replace (existsb (streq n) inherited) with true; [reflexivity|].
      symmetry. apply existsb_exists. exists n. split; [exact Hn|now apply streq_spec].
    - intros n. rewrite inherited_get. destruct (existsb (streq n) inherited) eqn:X.
      + intros _. right. apply existsb_exists in X as (m & Hm & X). now apply streq_spec in X as <-.
      + intros H. left. destruct (in_dec (list_eq_dec Z.eq_dec) n (map f_name fs)) as [Hn|Hn]; [exact Hn|].
        unfold get_attr in H. rewrite H2 in H by exact Hn. now cbn in H.
  Qed.
End more.

From Verif Require Import Proofs.StructuresNeg.
Lemma listable_choices ok v : v <> VNone ->
  (forall s, v <> VStr s) -> (forall l, v <> VList l) -> (forall d, v <> VDict d) ->
  make [Field (lit "l") CList false true false false None None (Some ok) None] [] [(lit "l", v)] =
    Ok [attr "l" (VList [v])].
Proof.
  intros H1 H2 H3 H4. destruct v as [|b|n|s|s|l|d]; [contradiction| | |now destruct (H2 s)| |now destruct (H3 l)|now destruct (H4 d)]; reflexivity.
Qed.
Lemma constructor_example : let fs := [many (named "n" CInt); Field (lit "m") CStr true true false false (Some (VStr (lit "a"))) None
    (Some (fun v => match v with VStr s => streq s (lit "a") || streq s (lit "b") | _ => false end)) None; named "l" CList] in
  NoDup (map f_name fs) /\ Forall unsigned fs /\
  make fs [lit "base_dir"] [(lit "n", VList [VStr (lit "12"); VBool true]); (lit "base_dir", VStr (lit "/d")); (lit "l", VStr (lit "x-2"))] =
    Ok [attr "n" (VList [VInt 12; VBool true]); attr "m" (VStr (lit "a")); attr "l" (VList [VStr (lit "x"); VInt 2]);
        attr "base_dir" (VStr (lit "/d"))] /\
  make fs [] [(lit "n", VInt 1); (lit "m", VStr (lit "c"))] = Err TypeError /\
  make fs [] [(lit "m", VStr (lit "b"))] = Err TypeError.
Proof.
  intros fs. split.
  { cbn. repeat constructor; cbn; intuition discriminate. }
  split; [repeat constructor; intros k X; discriminate X|]. repeat split; vm_compute; reflexivity.
Qed.

(** nargs decides whether a value has to be given, whatever [required] says. *)
Lemma construct_nargs : forall literal_eval uni uninumeric other_int is_float to_float to_str other_true f n kw,
  f_nargs f = Some n -> n <> NNum 0 -> plain_class (f_class f) -> given f kw = None ->
  construct literal_eval uni uninumeric other_int is_float to_float to_str other_true [f] [] kw =
    match n with NPlus => Err TypeError | _ => Ok [] end.
Proof.
  intros until kw. intros Hn H0 [P1 P2] G. unfold construct, set_fields, given in *.
  replace (set_self literal_eval uni uninumeric other_int is_float to_float to_str other_true f [] kw)
    with (plain_set uni other_int is_float to_float to_str other_true f [] kw)
    by (unfold set_self; destruct (f_class f); congruence).
  unfold plain_set, f_required. rewrite G, Hn. destruct n as [| | |k]; try reflexivity. destruct k; [congruence|reflexivity|reflexivity].
Qed.
