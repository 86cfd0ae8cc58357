(** Groups of parameter sets. *)
From Coq Require Import Permutation Sorted.
From Verif Require Import Proofs.DictFacts Proofs.ParamsFacts Proofs.StrFacts Proofs.StructuresRead Proofs.ProtocolFacts Proofs.FileNamesFacts Proofs.UtilNamesFacts Spec.GroupsSpec.
Open Scope Z_scope.

Section groups.
  Variable name : params -> pystr.
  Variable start : list (pystr * list params).
  Hypothesis start_nodup : NoDup (map fst start).
  Hypothesis start_empty : forall k l, gd_get streq start k = Some l -> l = [].
  Definition grouped (ps : list params) := fold_left (fun g p => put_group g (name p) p) ps start.
  Definition members_of (k : pystr) (ps : list params) : list params := filter (fun p => streq (name p) k) ps.

  Lemma put_get g k p k' : gd_get streq (put_group g k p) k' =
    if streq k k' then Some (match gd_get streq g k with Some l => l ++ [p] | None => [p] end) else gd_get streq g k'.
  Proof. unfold put_group. destruct (gd_get streq g k); now rewrite (get_set streq streq_spec). Qed.
  Lemma put_nodup g k p : NoDup (map fst g) -> NoDup (map fst (put_group g k p)).
  Proof. intros H. unfold put_group. destruct (gd_get streq g k); now apply (set_nodup streq streq_spec). Qed.

  Lemma grouped_snoc ps p : grouped (ps ++ [p]) = put_group (grouped ps) (name p) p.
  Proof. unfold grouped. now rewrite fold_left_app. Qed.
  Lemma members_snoc k ps p : members_of k (ps ++ [p]) = members_of k ps ++ (if streq (name p) k then [p] else []).
  Proof. unfold members_of. rewrite filter_app. cbn [filter]. now destruct (streq (name p) k). Qed.
  Lemma grouped_nodup ps : NoDup (map fst (grouped ps)).
  Proof. induction ps as [|p ps IH] using rev_ind; [exact start_nodup|]. rewrite grouped_snoc. now apply put_nodup. Qed.
  Lemma grouped_get ps k : gd_get streq (grouped ps) k =
    match members_of k ps with [] => match gd_get streq start k with Some _ => Some [] | None => None end | l => Some l end.
  Proof.
    induction ps as [|p ps IH] using rev_ind.
    - unfold grouped, members_of. cbn [fold_left filter]. destruct (gd_get streq start k) as [l|] eqn:E; [|reflexivity]. now rewrite (start_empty k l E).
    - rewrite grouped_snoc, put_get, members_snoc. destruct (streq (name p) k) eqn:E; [|now rewrite app_nil_r].
      apply streq_spec in E. rewrite E. rewrite IH. destruct (members_of k ps) as [|q l]; [|reflexivity].
      cbn [app]. now destruct (gd_get streq start k).
  Qed.
  (** every set is in one group *)
  Lemma grouped_perm ps : Permutation (concat (map snd (grouped ps))) ps.
  Proof.
    assert (HP : forall g k p, NoDup (map fst g) -> Permutation (concat (map snd (put_group g k p))) (p :: concat (map snd g))).
    { intros g k p. unfold put_group. induction g as [|[k0 l0] g IH]; intros HN; [reflexivity|]. cbn [map fst] in HN. inversion HN as [|? ? N1 N2]; subst.
      cbn [gd_get]. destruct (streq k0 k) eqn:E.
      - cbn [gd_set]. rewrite E. cbn [map snd concat]. rewrite <- app_assoc. cbn [app]. symmetry. apply Permutation_middle.
      - specialize (IH N2). destruct (gd_get streq g k) as [l|]; cbn [gd_set]; rewrite E; cbn [map snd concat]; rewrite IH; symmetry; apply Permutation_middle. }
    induction ps as [|p ps IH] using rev_ind.
    - unfold grouped. cbn [fold_left].
      assert (H0 : forall g, NoDup (map fst g) -> (forall k l, gd_get streq g k = Some l -> l = []) -> concat (map snd g) = @nil params).
      { induction g as [|[k l] g IH]; intros HN HE; [reflexivity|]. cbn [map fst] in HN. inversion HN as [|? ? N1 N2]; subst. cbn [map snd concat].
        assert (El : l = []) by (apply (HE k l); cbn [gd_get]; now rewrite streq_refl). subst l. apply IH; [exact N2|].
        intros k' l' E'. apply (HE k' l'). cbn [gd_get]. destruct (streq k k') eqn:Ek; [|exact E'].
        apply streq_spec in Ek. subst k'. apply (get_in streq streq_spec) in E'. exfalso. apply N1. apply in_map_iff. now exists (k, l'). }
      rewrite (H0 start start_nodup start_empty). reflexivity.
    - rewrite grouped_snoc, (HP _ _ _ (grouped_nodup ps)), IH. now rewrite <- Permutation_cons_append.
  Qed.
End groups.

(** ** group_by_keys *)
Theorem keys_groups ps keys : NoDup (map fst (group_by_keys ps keys)) /\
  (forall k, gd_get streq (group_by_keys ps keys) k =
     match filter (fun p => streq (group_name keys p) k) ps with [] => None | l => Some l end) /\
  Permutation (concat (map snd (group_by_keys ps keys))) ps.
Proof.
  assert (HE : forall k l, gd_get streq (@nil (pystr * list params)) k = Some l -> l = []) by discriminate.
  split; [|split].
  - apply (grouped_nodup (group_name keys) [] (NoDup_nil _)).
  - intros k. exact (grouped_get (group_name keys) [] HE ps k).
  - exact (grouped_perm (group_name keys) [] (NoDup_nil _) HE ps).
Qed.

Lemma cut_at (x : Z) s t u v : ~ In x s -> ~ In x t -> s ++ x :: u = t ++ x :: v -> s = t /\ u = v.
Proof.
  revert t. induction s as [|a s IH]; intros t Hs Ht E.
  - destruct t as [|b t]; [injection E as ->; now split|]. injection E as -> _. exfalso. apply Ht. now left.
  - destruct t as [|b t]; [injection E as -> _; exfalso; apply Hs; now left|]. injection E as -> E.
    destruct (IH t) as [-> ->]; [intros H; apply Hs; now right|intros H; apply Ht; now right|exact E|now split].
Qed.
Lemma joined_same (t u : pystr -> pystr) : (forall k, ~ In underscore (t k)) -> (forall k, ~ In underscore (u k)) -> forall l,
  join [underscore] (map (fun k => k ++ [dash] ++ t k) l) = join [underscore] (map (fun k => k ++ [dash] ++ u k) l) -> forall k, In k l -> t k = u k.
Proof.
  intros Ht Hu. induction l as [|a l IH]; intros E k Hk; [destruct Hk|]. destruct l as [|b l].
  - cbn in E. apply app_inv_head in E. injection E as E. destruct Hk as [<-|[]]. exact E.
  - assert (HJ : forall f : pystr -> pystr, join [underscore] (map f (a :: b :: l)) = f a ++ underscore :: join [underscore] (map f (b :: l))) by reflexivity.
    rewrite !HJ in E. clear HJ. rewrite <- !app_assoc in E. apply app_inv_head in E. cbn [app] in E. injection E as E.
    apply cut_at in E as [E1 E2]; [|apply Ht|apply Hu]. destruct Hk as [<-|Hk]; [exact E1|]. exact (IH E2 k Hk).
Qed.
Lemma sort_keys {A} (v : pystr -> A) l : sort_items (map (fun k => (k, v k)) l) = map (fun k => (k, v k)) (sort strle l).
Proof.
  induction l as [|k l IH]; [reflexivity|]. cbn [map]. unfold sort_items, sort in *. cbn [fold_right]. rewrite IH.
  generalize (fold_right (insert strle) [] l). clear. induction l as [|x l IH]; [reflexivity|]. cbn [map insert fst]. destruct (strle k x); [reflexivity|]. cbn [map]. now rewrite IH.
Qed.
(** the text of a set for a key *)
Definition key_text (k : pystr) (p : params) : pystr := join_items (match gd_get streq p k with Some v => v | None => UOne UNone end) false.
Lemma name_texts keys p : keys <> [] -> NoDup keys -> group_name keys p = join [underscore] (map (fun k => k ++ [dash] ++ key_text k p) (sort strle keys)).
Proof.
  intros Hne HN. unfold group_name. destruct keys as [|k0 ks]; [congruence|].
  rewrite (of_nodup streq streq_spec) by (rewrite map_map; cbn [fst]; rewrite map_id; exact HN).
  unfold join_params. rewrite (sort_keys (fun k => match gd_get streq p k with Some v => v | None => UOne UNone end)), map_map. reflexivity.
Qed.
(** Sets are in a group exactly if they have the same texts. *)
Theorem same_group keys p q : NoDup keys -> (forall k, In k keys -> ~ In underscore (key_text k p) /\ ~ In underscore (key_text k q)) ->
  (group_name keys p = group_name keys q <-> forall k, In k keys -> key_text k p = key_text k q).
Proof.
  intros HN HU. destruct keys as [|k0 ks]; [split; [intros _ k []|reflexivity]|]. set (keys := k0 :: ks) in *.
  assert (Hne : keys <> []) by discriminate. rewrite !(name_texts keys) by assumption.
  assert (HI : forall k, In k (sort strle keys) <-> In k keys).
  { intros k. split; intros H; [apply Permutation_in with (1 := Permutation_sym (sort_perm strle keys)); exact H|apply Permutation_in with (1 := sort_perm strle keys); exact H]. }
  split.
  - intros E k Hk.
    set (t := fun x => if in_dec (list_eq_dec Z.eq_dec) x keys then key_text x p else []).
    set (u := fun x => if in_dec (list_eq_dec Z.eq_dec) x keys then key_text x q else []).
    assert (Et : t k = u k).
    { apply (joined_same t u) with (l := sort strle keys); [| | |now apply HI].
      - intros x. unfold t. destruct in_dec as [Hx|Hx]; [now apply HU|intros []].
      - intros x. unfold u. destruct in_dec as [Hx|Hx]; [now apply HU|intros []].
      - transitivity (join [underscore] (map (fun k => k ++ [dash] ++ key_text k p) (sort strle keys))).
        + f_equal. apply map_ext_in. intros x Hx. apply HI in Hx. unfold t. now destruct in_dec.
        + rewrite E. f_equal. apply map_ext_in. intros x Hx. apply HI in Hx. unfold u. now destruct in_dec. }
    unfold t, u in Et. destruct in_dec; [exact Et|contradiction].
  - intros H. f_equal. apply map_ext_in. intros x Hx. apply HI in Hx. now rewrite (H x Hx).
Qed.

(** ** Values told apart *)
Lemma int_inj m n : str_of_int m = str_of_int n -> m = n.
Proof. intros E. pose proof (int_str (fun _ => None) m) as H. rewrite E, int_str in H. congruence. Qed.
Lemma int_not_none n : str_of_int n <> lit "None".
Proof. intros E. pose proof (int_str (fun _ => None) n) as H. rewrite E in H. vm_compute in H. discriminate. Qed.
Lemma told k p q : comparable (gd_get streq p k) (gd_get streq q k) ->
  ~ In underscore (key_text k p) /\ ~ In underscore (key_text k q) /\ (key_text k p = key_text k q <-> gd_get streq p k = gd_get streq q k).
Proof.
  assert (HN : ~ In underscore (lit "None")) by (cbn; unfold underscore; lia).
  assert (HS : forall s, Forall safe s -> ~ In dash s -> join_items (UOne (UStr s)) false = s) by (intros s H1 H2; cbn [join_items]; now apply uclean_id).
  unfold key_text. intros [[[->|[m ->]] [->|[n ->]]]|[[->|(s & -> & S1 & S2 & S3 & S4)] [->|(t & -> & T1 & T2 & T3 & T4)]]];
    rewrite ?HS by assumption; (split; [|split]); try assumption; try (apply str_of_int_no); try (split; [|congruence]); try congruence.
  - intros E. symmetry in E. now apply int_not_none in E.
  - intros E. now apply int_not_none in E.
  - intros E. now rewrite (int_inj _ _ E).
  - intros E. cbn [join_items ustr] in E. congruence.
  - intros E. cbn [join_items ustr] in E. congruence.
Qed.
Theorem same_values ps keys p q : NoDup keys -> In p ps -> In q ps ->
  (forall k, In k keys -> comparable (gd_get streq p k) (gd_get streq q k)) ->
  (together (group_by_keys ps keys) p q <-> forall k, In k keys -> gd_get streq p k = gd_get streq q k).
Proof.
  intros HN Hp Hq HC. destruct (keys_groups ps keys) as (K1 & K2 & _).
  transitivity (group_name keys p = group_name keys q).
  - split.
    + intros (k & l & H1 & H2 & H3). apply (in_get streq streq_spec) in H1; [|exact K1]. rewrite K2 in H1.
      destruct filter as [|x y] eqn:EF; [discriminate|]. injection H1 as <-. rewrite <- EF in H2, H3.
      apply filter_In in H2 as [_ H2]. apply filter_In in H3 as [_ H3]. apply streq_spec in H2, H3. congruence.
    + intros E. specialize (K2 (group_name keys p)).
      assert (H1 : In p (filter (fun x => streq (group_name keys x) (group_name keys p)) ps)) by (apply filter_In; split; [exact Hp|apply streq_refl]).
      assert (H2 : In q (filter (fun x => streq (group_name keys x) (group_name keys p)) ps)) by (apply filter_In; split; [exact Hq|rewrite E; apply streq_refl]).
      destruct filter as [|x y] eqn:EF; [destruct H1|]. exists (group_name keys p), (x :: y). split; [|now split].
      now apply (get_in streq streq_spec).
  - rewrite same_group; [|exact HN|intros k Hk; destruct (told k p q (HC k Hk)) as (T1 & T2 & _); now split].
    split; intros H k Hk; apply (told k p q (HC k Hk)); now apply H.
Qed.
(** Lists with underscores: all values differ, and yet there is one group. *)
Lemma joined_values : exists p q, gd_get streq p (lit "a") <> gd_get streq q (lit "a") /\ gd_get streq p (lit "b") <> gd_get streq q (lit "b") /\
  group_by_keys [p; q] [lit "a"; lit "b"] = [(lit "a-x_b-y_b-z", [p; q])].
Proof.
  exists [(lit "a", UList [UStr (lit "x_b"); UStr (lit "y")]); (lit "b", UOne (UStr (lit "z")))],
    [(lit "a", UOne (UStr (lit "x"))); (lit "b", UList [UStr (lit "y_b"); UStr (lit "z")])].
  split; [vm_compute; discriminate|]. split; [vm_compute; discriminate|]. vm_compute. reflexivity.
Qed.
(** ** group_by_key *)
Section key.
  Variable list_text : list uitem -> pystr.
  Definition shown_as (key : pystr) (p : params) : pystr := match gd_get streq p key with Some v => value_text list_text v | None => lit "None" end.
  Theorem key_groups ps key : NoDup (map fst (group_by_key list_text ps key)) /\
    (forall k, gd_get streq (group_by_key list_text ps key) k =
       match filter (fun p => streq (shown_as key p) k) ps with [] => if streq (lit "None") k then Some [] else None | l => Some l end) /\
    Permutation (concat (map snd (group_by_key list_text ps key))) ps.
  Proof.
    assert (HN : NoDup (map fst [(lit "None", @nil params)])) by (constructor; [intros []|constructor]).
    assert (HE : forall k l, gd_get streq [(lit "None", @nil params)] k = Some l -> l = []).
    { intros k l. cbn [gd_get]. destruct (streq (lit "None") k); [now intros [= <-]|discriminate]. }
    split; [|split].
    - apply (grouped_nodup (shown_as key) _ HN).
    - intros k. etransitivity; [exact (grouped_get (shown_as key) _ HE ps k)|]. unfold members_of. cbn [gd_get]. now destruct (streq (lit "None") k).
    - exact (grouped_perm (shown_as key) _ HN HE ps).
  Qed.
End key.

(** ** Sets with different values in one group *)
Lemma mixed_groups : exists p q r s, gd_get streq p (lit "a") = Some (UOne (UInt 1)) /\ gd_get streq q (lit "a") = Some (UOne (UStr (lit "1"))) /\
  gd_get streq r (lit "a") = None /\ gd_get streq s (lit "a") = Some (UOne (UStr (lit "None"))) /\
  group_by_keys [p; q; r; s] [lit "a"] = [(lit "a-1", [p; q]); (lit "a-None", [r; s])] /\
  forall list_text, group_by_key list_text [p; q; r; s] (lit "a") = [(lit "None", [r; s]); (lit "1", [p; q])].
Proof.
  exists [(lit "a", UOne (UInt 1))], [(lit "a", UOne (UStr (lit "1")))], [(lit "b", UOne UNone)], [(lit "a", UOne (UStr (lit "None")))].
  repeat apply conj; try (intros list_text); vm_compute; reflexivity.
Qed.

(** a string is taken for the list of its letters *)
Lemma letters_group ps s : s <> [] -> (forall p c, In p ps -> In c s -> gd_get streq p [c] = None) -> ps <> [] ->
  exists k, group_by_keys ps (letters s) = [(k, ps)].
Proof.
  intros Hs HP Hne. exists (group_name (letters s) []).
  assert (HK : forall p, In p ps -> group_name (letters s) p = group_name (letters s) []).
  { intros p Hp. unfold group_name, letters. destruct s as [|c0 s0]; [congruence|]. set (s := c0 :: s0) in *.
    assert (E : map (fun k => (k, match gd_get streq p k with Some v => v | None => UOne UNone end)) (map (fun c => [c]) s) =
      map (fun k => (k, match gd_get streq ([] : params) k with Some v => v | None => UOne UNone end)) (map (fun c => [c]) s)).
    { rewrite !map_map. apply map_ext_in. intros c Hc. rewrite (HP p c Hp Hc). reflexivity. }
    rewrite E. reflexivity. }
  unfold group_by_keys. destruct ps as [|p0 ps]; [congruence|]. cbn [fold_left]. rewrite (HK p0 (or_introl eq_refl)). unfold put_group at 2. cbn [gd_get gd_set].
  assert (HG : forall l done, (forall p, In p l -> In p (p0 :: ps)) ->
    fold_left (fun names p => put_group names (group_name (letters s) p) p) l [(group_name (letters s) [], done)] = [(group_name (letters s) [], done ++ l)]).
  { induction l as [|p l IH]; intros done Hl; cbn [fold_left]; [now rewrite app_nil_r|]. rewrite (HK p (Hl p (or_introl eq_refl))).
    unfold put_group. cbn [gd_get gd_set]. rewrite streq_refl. rewrite IH by (intros; apply Hl; now right). now rewrite <- app_assoc. }
  rewrite HG; [reflexivity|]. intros p H. now right.
Qed.

(** ** check_param_matches *)
Section matches.
  Variable veq : uval -> uval -> bool.
  Hypothesis veq_spec : forall x y, veq x y = true <-> x = y.
  Theorem matches_required candidate settings required : check_param_matches veq candidate settings required [] = Ok true <->
    forall k, In k required -> exists v, gd_get streq candidate k = Some v /\ forall w, gd_get streq settings k = Some w -> w = v.
  Proof.
    unfold check_param_matches. cbn [none_restricted].
    transitivity (all_required veq candidate settings required = true); [destruct all_required; split; congruence|].
    induction required as [|k r IH]; cbn [all_required]; [split; [intros _ k []|reflexivity]|].
    destruct (gd_get streq candidate k) as [v|] eqn:Ek.
    - assert (HH : (forall x, In x (k :: r) -> exists v, gd_get streq candidate x = Some v /\ forall w, gd_get streq settings x = Some w -> w = v) <->
        (forall w, gd_get streq settings k = Some w -> w = v) /\ forall x, In x r -> exists v, gd_get streq candidate x = Some v /\ forall w, gd_get streq settings x = Some w -> w = v).
      { split.
        - intros H. split; [|intros x Hx; apply H; now right]. intros w Hw. destruct (H k (or_introl eq_refl)) as (v' & E & H'). rewrite Ek in E. injection E as <-. now apply H'.
        - intros [H1 H2] x [<-|Hx]; [exists v; now split|now apply H2]. }
      rewrite HH, <- IH. destruct (gd_get streq settings k) as [w|].
      + destruct (veq w v) eqn:Ev.
        * apply veq_spec in Ev. subst w. split; [intros H; split; [intros w [= <-]; reflexivity|exact H]|now intros [_ H]].
        * split; [discriminate|]. intros [H _]. specialize (H w eq_refl). apply veq_spec in H. congruence.
      + split; [intros H; split; [discriminate|exact H]|now intros [_ H]].
    - split; [discriminate|]. intros H. destruct (H k (or_introl eq_refl)) as (v & E & _). congruence.
  Qed.
  (** restricted keys have to be set on both sides *)
  Theorem matches_restricted candidate settings required restricted :
    (forall k, In k restricted -> gd_get streq candidate k <> None /\ gd_get streq settings k <> None) ->
    (check_param_matches veq candidate settings required restricted = Ok true <->
     check_param_matches veq candidate settings required [] = Ok true /\ forall k, In k restricted -> gd_get streq candidate k <> gd_get streq settings k).
  Proof.
    intros HR. unfold check_param_matches. destruct (all_required veq candidate settings required); [|split; [discriminate|now intros [H _]]].
    cbn [none_restricted]. induction restricted as [|k r IH]; cbn [none_restricted]; [split; [intros _; split; [reflexivity|intros k []]|reflexivity]|].
    destruct (HR k (or_introl eq_refl)) as [H1 H2].
    destruct (gd_get streq settings k) as [w|] eqn:Es; [|congruence]. destruct (gd_get streq candidate k) as [v|] eqn:Ec; [|congruence].
    destruct (veq w v) eqn:Ev.
    - apply veq_spec in Ev. subst w. split; [discriminate|]. intros [_ H]. exfalso. apply (H k (or_introl eq_refl)). congruence.
    - rewrite IH by (intros x Hx; apply HR; now right). split.
      + intros [_ H]. split; [reflexivity|]. intros x [<-|Hx]; [|now apply H]. rewrite Es, Ec. intros E. injection E as ->.
        assert (veq w w = true) by now apply veq_spec. congruence.
      + intros [_ H]. split; [reflexivity|]. intros x Hx. apply H. now right.
  Qed.
  Theorem restricted_raises candidate settings k : gd_get streq candidate k = None \/ gd_get streq settings k = None ->
    check_param_matches veq candidate settings [] [k] = Err KeyError.
  Proof. intros [H|H]; unfold check_param_matches; cbn [all_required none_restricted]; rewrite H; [now destruct (gd_get streq settings k)|reflexivity]. Qed.
End matches.

(** ** What users see *)
Theorem keys_partition ps keys : exists name : params -> pystr, NoDup (map fst (group_by_keys ps keys)) /\
  (forall k, gd_get streq (group_by_keys ps keys) k = match filter (fun p => streq (name p) k) ps with [] => None | l => Some l end) /\
  Permutation (concat (map snd (group_by_keys ps keys))) ps.
Proof. exists (group_name keys). apply keys_groups. Qed.
Theorem keys_name ps keys p : keys <> [] -> NoDup keys -> In p ps ->
  exists l, gd_get streq (group_by_keys ps keys) (join [underscore] (map (fun k => k ++ [dash] ++ key_text k p) (sort strle keys))) = Some l /\ In p l.
Proof.
  intros H1 H2 Hp. rewrite <- (name_texts keys p H1 H2). destruct (keys_groups ps keys) as (_ & K & _). rewrite K.
  assert (H : In p (filter (fun x => streq (group_name keys x) (group_name keys p)) ps)) by (apply filter_In; split; [exact Hp|apply streq_refl]).
  destruct filter as [|x l]; [destruct H|]. now exists (x :: l).
Qed.
Theorem no_keys ps : ps <> [] -> group_by_keys ps [] = [([], ps)].
Proof.
  intros H. destruct ps as [|p ps]; [congruence|]. unfold group_by_keys. cbn [fold_left group_name]. unfold put_group at 2. cbn [gd_get gd_set].
  assert (HG : forall l done, fold_left (fun names p => put_group names (group_name [] p) p) l [([], done)] = [([], done ++ l)]).
  { induction l as [|q l IH]; intros done; cbn [fold_left]; [now rewrite app_nil_r|]. unfold put_group at 2. cbn [group_name gd_get gd_set streq]. rewrite IH. now rewrite <- app_assoc. }
  exact (HG ps [p]).
Qed.
(** an equality that tells all values apart *)
Definition uval_eq_dec (v w : uval) : {v = w} + {v <> w}.
Proof.
  assert (D : forall x y : uitem, {x = y} + {x <> y}).
  { decide equality; try apply Bool.bool_dec; try apply Z.eq_dec; try apply (list_eq_dec Z.eq_dec). decide equality. apply Bool.bool_dec. }
  decide equality. apply (list_eq_dec D).
Defined.
Definition uval_eqb (v w : uval) : bool := if uval_eq_dec v w then true else false.
Lemma uval_eqb_spec x y : uval_eqb x y = true <-> x = y.
Proof. unfold uval_eqb. destruct uval_eq_dec; split; congruence. Qed.
