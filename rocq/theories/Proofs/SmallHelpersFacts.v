(** Facts about the small helpers. *)
From Coq Require Import Permutation.
From Verif Require Import Spec.SmallHelpers.
From Verif Require Import Proofs.DictFacts Proofs.ParamsFacts Proofs.StrFacts Proofs.ProtocolFacts Proofs.FileNamesFacts Proofs.UtilNamesFacts Proofs.PathFacts Proofs.LogDataFacts.
Open Scope Z_scope.

Section dirs.
  Context {F : Type} (float_of : pystr -> option F) (fneg : F -> F).
  Variable uni : pystr -> option Z.
  Variable uninumeric : pystr -> bool.
  Variable numeq : @item_ F -> @item_ F -> bool.
  Notation texts params := (forall i, In i (map fst params) -> exists s, i = IStr s).
  Notation item_eq := (item_eq numeq).

  Lemma set_incl (d : list (@item_ F * @param_ F)) k v i : In i (map fst d) -> In i (map fst (gd_set item_eq d k v)).
  Proof.
    induction d as [|[k0 v0] d IH]; cbn [map In gd_set fst]; [tauto|]. destruct (item_eq k0 k); cbn [map In fst]; tauto.
  Qed.
  Lemma set_has (d : list (@item_ F * @param_ F)) k v : (exists i, In i (map fst d) /\ item_eq i k = true) \/ In k (map fst (gd_set item_eq d k v)).
  Proof.
    induction d as [|[k0 v0] d IH]; cbn [map In gd_set fst]; [right; now left|]. destruct (item_eq k0 k) eqn:E.
    - left. exists k0. auto.
    - destruct IH as [(i & Hi & E')|H]; [left; exists i; auto|right; cbn [map In fst]; auto].
  Qed.
  Lemma set_nodup (d : list (@item_ F * @param_ F)) k v : NoDup (map fst d) -> item_eq k k = true -> NoDup (map fst (gd_set item_eq d k v)).
  Proof.
    intros HN Hk. induction d as [|[k0 v0] d IH]; cbn [map gd_set fst] in *; [repeat constructor; tauto|].
    inversion HN as [|? ? N1 N2]; subst. destruct (item_eq k0 k) eqn:E; cbn [map fst]; constructor; auto.
    intros H. assert (G : forall (d : list (@item_ F * @param_ F)) i, In i (map fst (gd_set item_eq d k v)) -> i = k \/ In i (map fst d)).
    { clear. induction d as [|[k1 v1] d IH]; intros i; cbn [gd_set map In fst]; [intros [<-|[]]; auto|].
      destruct (item_eq k1 k); cbn [map In fst]; [tauto|]. intros [H|H]; [auto|]. apply IH in H. tauto. }
    apply G in H as [->|H]; [congruence|tauto].
  Qed.

  Lemma loop_incl : forall parts glued params params', usplit_loop float_of fneg uni uninumeric numeq glued parts params = Ok params' ->
    incl (map fst params) (map fst params').
  Proof.
    induction parts as [|p parts IH]; intros glued params params'; cbn [usplit_loop].
    - intros H. injection H as <-. apply incl_refl.
    - destruct (split_items _ _ _ _) as [items|]; cbn [bind]; [|discriminate].
      assert (G : forall k v, usplit_loop float_of fneg uni uninumeric numeq None parts (gd_set item_eq params k v) = Ok params' -> incl (map fst params) (map fst params')).
      { intros k v H i Hi. apply (IH _ _ _ H). now apply set_incl. }
      destruct items as [|k [|v [|w [|z rest]]]]; try exact (IH _ _ _); try exact (G _ _).
      destruct v as [|n|f|[|c s]]; try discriminate; [|exact (G _ _)].
      destruct w; cbn [bind]; try discriminate; exact (G _ _).
  Qed.

  Lemma loop_nodup : forall parts glued params params', usplit_loop float_of fneg uni uninumeric numeq glued parts params = Ok params' ->
    texts params' -> NoDup (map fst params) -> NoDup (map fst params').
  Proof.
    induction parts as [|p parts IH]; intros glued params params'; cbn [usplit_loop].
    - intros H. injection H as <-. auto.
    - destruct (split_items _ _ _ _) as [items|]; cbn [bind]; [|discriminate].
      assert (G : forall k v, usplit_loop float_of fneg uni uninumeric numeq None parts (gd_set item_eq params k v) = Ok params' -> texts params' -> NoDup (map fst params) -> NoDup (map fst params')).
      { intros k v H HT HN. apply (IH _ _ _ H HT), set_nodup; [exact HN|].
        pose proof (loop_incl _ _ _ _ H) as HI.
        assert (Hk : exists s, k = IStr s).
        { destruct (set_has params k v) as [(i & Hi & E)|Hk]; [|exact (HT k (HI k Hk))].
          destruct (HT i (HI i (set_incl _ _ _ _ Hi))) as (s & ->). destruct k; try discriminate. eauto. }
        destruct Hk as (s & ->). cbn [UtilNames.item_eq]. now apply streq_spec. }
      destruct items as [|k [|v [|w [|z rest]]]]; try exact (IH _ _ _); try exact (G _ _).
      destruct v as [|n|f|[|c s]]; try discriminate; [|exact (G _ _)].
      destruct w; cbn [bind]; try discriminate; exact (G _ _).
  Qed.

  (** updating a dictionary *)
  Lemma update_get : forall d params k, NoDup (map fst d) -> texts d -> texts params ->
    gd_get item_eq (dict_update numeq params d) (IStr k) =
    match gd_get item_eq d (IStr k) with Some v => Some v | None => gd_get item_eq params (IStr k) end.
  Proof.
    induction d as [|[i v] d IH]; intros params k HN HT HP; [reflexivity|]. cbn [dict_update fold_left fst snd gd_get].
    destruct (HT i (or_introl eq_refl)) as (s & ->). inversion HN as [|? ? N1 N2]; subst. cbn [UtilNames.item_eq].
    change (fold_left _ d ?x) with (dict_update numeq x d). rewrite IH; [|exact N2|intros j Hj; apply HT; now right|].
    - rewrite get_set_str by exact HP. destruct (streq s k) eqn:E; [|reflexivity]. apply streq_spec in E as ->.
      destruct (gd_get item_eq d (IStr k)) as [w|] eqn:G; [|reflexivity]. exfalso. apply N1.
      assert (T : texts d) by (intros j Hj; apply HT; now right). revert G T. clear. induction d as [|[j x] d IH]; cbn [gd_get map In fst]; [discriminate|].
      intros G T. destruct (T j (or_introl eq_refl)) as (s & ->). cbn [UtilNames.item_eq] in G. destruct (streq s k) eqn:E.
      + left. apply streq_spec in E. now rewrite E.
      + right. apply IH; [exact G|]. intros i Hi. apply T. now right.
    - intros j Hj. apply (set_keys_str float_of uni uninumeric numeq params _ _ HP) in Hj. destruct Hj as [->|Hj]; [eauto|apply HP, Hj].
  Qed.

  (** what comes back has only safe characters *)
  Lemma none_safe : Forall safe (lit "None").
  Proof. vm_compute lit. repeat (apply Forall_cons; [unfold safe; lia|]). apply Forall_nil. Qed.
  Lemma bool_safe b : Forall safe (ustr (UBool b)).
  Proof. destruct b; cbn [ustr]; vm_compute lit; repeat (apply Forall_cons; [unfold safe; lia|]); apply Forall_nil. Qed.
  Lemma uclean_safe s : Forall safe (uclean s).
  Proof. apply Forall_forall. intros c Hc. now apply uclean_in in Hc. Qed.
  Lemma join_safe l : Forall (Forall safe) l -> Forall safe (join [dash] l).
  Proof.
    induction 1 as [|s l Hs _ IH]; [constructor|]. destruct l as [|t l]; [exact Hs|]. cbn [join].
    apply Forall_app. split; [exact Hs|]. apply Forall_app. split; [|exact IH]. constructor; [unfold safe, dash; lia|constructor].
  Qed.
  Lemma comes_back_safe v r : comes_back float_of fneg uninumeric v r -> Forall safe (join_items v false).
  Proof.
    assert (L : forall l, Forall safe (join_items (UList l) false)).
    { intros l. cbn [join_items]. apply join_safe, Forall_forall. intros s Hs. apply in_map_iff in Hs as (x & <- & _). apply uclean_safe. }
    intros [u i Hu|n Hn H0|s b f (W1 & W2 & W3) N NN Hf H0|s w u i Hs Hv Hw ->|l is_ Hl Hf]; try apply L.
    - destruct Hu as [|n Hn|s Hs _ _|b Hb|s b f (W1 & _) _ _ _]; cbn [join_items ustr].
      + apply none_safe.
      + apply safe_int.
      + apply uclean_safe.
      + apply bool_safe.
      + exact W1.
    - apply safe_int.
    - cbn [join_items ustr]. constructor; [unfold safe, dash; lia|exact W1].
  Qed.

  Lemma params_plain d : d <> [] -> (forall k v, In (k, v) d -> name_like float_of uninumeric k /\ ~ In dash k /\
       exists r, comes_back float_of fneg uninumeric v r) -> plain (join_params d).
  Proof.
    intros Hne HD. pose proof (sort_items_perm d) as HP.
    assert (HD' : forall k v, In (k, v) (sort_items d) -> Forall safe (k ++ [dash] ++ join_items v false)).
    { intros k v H. apply (Permutation_in _ (Permutation_sym HP)) in H. destruct (HD k v H) as ((K1 & _) & _ & r & Hr).
      apply Forall_app. split; [exact K1|]. apply Forall_app. split; [|exact (comes_back_safe v r Hr)]. constructor; [unfold safe, dash; lia|constructor]. }
    assert (Hs : Forall safe (join_params d) /\ In dash (join_params d)).
    { unfold join_params. destruct (sort_items d) as [|[k v] l] eqn:E.
      { apply Permutation_sym, Permutation_nil in HP. contradiction. }
      clear E HP. split.
      - generalize dependent ((k, v) :: l). clear. induction l as [|[k v] l IH]; intros HD; [constructor|].
        cbn [map fst snd]. destruct l as [|p l]; [exact (HD k v (or_introl eq_refl))|].
        cbn [map join]. apply Forall_app. split; [exact (HD k v (or_introl eq_refl))|]. apply Forall_app.
        split; [constructor; [unfold safe, underscore; lia|constructor]|]. apply IH. intros k' v' H. apply HD. now right.
      - cbn [map fst snd]. destruct l as [|p l]; cbn [map join]; rewrite !in_app_iff; cbn; tauto. }
    destruct Hs as (Hs & Hd). split; [intros E; rewrite E in Hd; exact Hd|].
    split; [intros H; rewrite Forall_forall in Hs; specialize (Hs _ H); unfold safe, slash in Hs; lia|].
    split; intros E; rewrite E in Hd; cbn in Hd; unfold dot, dash in Hd; lia.
  Qed.

  Theorem dir_params_back r cs d params0 : Forall plain cs -> NoDup (map fst d) -> d <> [] ->
    (forall k v, In (k, v) d -> name_like float_of uninumeric k /\ ~ In dash k /\ exists r, comes_back float_of fneg uninumeric v r) ->
    texts params0 ->
    exists params, get_dir_params float_of fneg uni uninumeric numeq (path_text r (cs ++ [join_params d])) params0 = Ok (path_text r cs, params) /\
      texts params /\
      (forall k v x, In (k, v) d -> comes_back float_of fneg uninumeric v x -> gd_get item_eq params (IStr k) = Some x) /\
      (forall k, ~ In k (map fst d) -> gd_get item_eq params (IStr k) = gd_get item_eq params0 (IStr k)).
  Proof.
    intros HC HN Hne HD HT0. unfold get_dir_params. rewrite split_path by (try exact HC; now apply params_plain).
    destruct (uround float_of fneg uni uninumeric numeq d HN Hne HD) as (ps & E & P1 & P2). rewrite E. cbn [bind].
    assert (HT : texts ps) by (intros i Hi; apply P1 in Hi as (k & -> & _); eauto).
    assert (HNp : NoDup (map fst ps)) by (eapply loop_nodup; [exact E|exact HT|constructor]).
    exists (dict_update numeq params0 ps). split; [reflexivity|]. split.
    - clear HNp P1 P2 E. revert params0 HT0. induction ps as [|[i v] ps IH]; intros params HT0; [exact HT0|].
      cbn [dict_update fold_left fst snd]. change (fold_left _ ps ?x) with (dict_update numeq x ps). apply IH.
      + intros j Hj. apply HT. now right.
      + destruct (HT i (or_introl eq_refl)) as (s & ->). intros j Hj. apply (set_keys_str float_of uni uninumeric numeq params _ _ HT0) in Hj. destruct Hj as [->|Hj]; eauto.
    - split.
      + intros k v x Hin Hx. rewrite update_get by assumption. now rewrite (P2 k v x Hin Hx).
      + intros k Hk. rewrite update_get by assumption. destruct (gd_get item_eq ps (IStr k)) as [w|] eqn:G; [|reflexivity].
        exfalso. apply Hk. assert (In (IStr k) (map fst ps)).
        { revert G HT. clear. induction ps as [|[j x] d IH]; cbn [gd_get map In fst]; [discriminate|].
          intros G T. destruct (T j (or_introl eq_refl)) as (s & ->). cbn [UtilNames.item_eq] in G. destruct (streq s k) eqn:E.
          - left. apply streq_spec in E. now rewrite E.
          - right. apply IH; [exact G|]. intros i Hi. apply T. now right. }
        apply P1 in H as (k' & E' & H). injection E' as ->. exact H.
  Qed.
End dirs.

Section words.
  Variable uspace : Z -> bool.

  Lemma join_words : forall l, Forall (one_word uspace) l -> words uspace (join [32] l) = l.
  Proof.
    assert (E1 : forall w s, one_word uspace w -> words uspace (w ++ 32 :: s) = w :: words uspace s).
    { intros w s (W1 & W2). unfold words. rewrite words_word by exact W2. rewrite app_nil_r. cbn [words_aux].
      change (space uspace 32) with true. cbn iota. destruct w as [|a w]; [contradiction|].
      destruct (rev (a :: w)) as [|x y] eqn:E; [apply (f_equal (@length Z)) in E; rewrite rev_length in E; discriminate|].
      rewrite <- E, rev_involutive. reflexivity. }
    induction 1 as [|w l Hw Hl IH]; [reflexivity|]. destruct l as [|w2 l].
    - cbn [join]. destruct Hw as (W1 & W2). unfold words. rewrite <- (app_nil_r w) at 1. rewrite words_word by exact W2. rewrite app_nil_r. cbn [words_aux].
      destruct w as [|a w]; [contradiction|].
      destruct (rev (a :: w)) as [|x y] eqn:E; [apply (f_equal (@length Z)) in E; rewrite rev_length in E; discriminate|].
      rewrite <- E, rev_involutive. reflexivity.
    - change (join [32] (w :: w2 :: l)) with (w ++ 32 :: join [32] (w2 :: l)). rewrite E1, IH by exact Hw. reflexivity.
  Qed.

  Theorem arg_string_words params : Forall (one_word uspace) (params_to_args params) ->
    words uspace (params_to_arg_string params) = params_to_args params.
  Proof. apply join_words. Qed.

  Lemma arg_string_blank : words uspace (params_to_arg_string [(lit "f", UOne (UStr (lit "a b")))]) = [lit "--f"; lit "a"; lit "b"] /\
    params_to_args [(lit "f", UOne (UStr (lit "a b")))] = [lit "--f"; lit "a b"].
  Proof. split; reflexivity. Qed.
End words.

Section sets.
  Context {A : Type} (aeq : A -> A -> bool).
  Hypothesis aeq_ok : forall x y, aeq x y = true <-> x = y.
  Theorem membership r p : confirm_membership aeq r p = true <-> incl r p.
  Proof.
    unfold confirm_membership. rewrite forallb_forall. split; intros H x Hx.
    - specialize (H x Hx). apply existsb_exists in H as (y & Hy & E). apply aeq_ok in E as ->. exact Hy.
    - apply existsb_exists. exists x. split; [now apply H|now apply aeq_ok].
  Qed.
End sets.

Section dicts.
  Context {K V : Type} (keq : K -> K -> bool) (veq : V -> V -> bool) (hashable : V -> bool).
  Hypothesis keq_ok : forall x y, keq x y = true <-> x = y.
  Hypothesis veq_ok : forall x y, veq x y = true <-> x = y.
  Notation get d k := (gd_get keq d k).
  Notation hashed d := (forall k v, In (k, v) d -> hashable v = true).

  Lemma get_in (d : list (K * V)) k v : NoDup (map fst d) -> get d k = Some v <-> In (k, v) d.
  Proof.
    induction d as [|[k0 v0] d IH]; intros HN; cbn [gd_get In]; [split; [discriminate|tauto]|].
    inversion HN as [|? ? N1 N2]; subst. destruct (keq k0 k) eqn:E.
    - apply keq_ok in E as ->. split; [intros H; injection H as ->; now left|]. intros [H|H]; [now injection H as ->|].
      exfalso. apply N1. apply in_map_iff. exists (k, v). auto.
    - rewrite (IH N2). split; [tauto|]. intros [H|H]; [|exact H]. injection H as -> ->. assert (keq k k = true) by now apply keq_ok. congruence.
  Qed.

  Theorem exact_match d1 d2 : NoDup (map fst d1) -> NoDup (map fst d2) -> hashed d1 -> hashed d2 ->
    exists b, dicts_exact_match keq veq hashable d1 d2 = Ok b /\
      (b = true <-> forall k v, get d1 k = Some v -> get d2 k = Some v).
  Proof.
    intros N1 N2 H1 H2. unfold dicts_exact_match, item_set.
    assert (G : forall d, hashed d -> forallb (fun kv : K * V => hashable (snd kv)) d = true).
    { intros d H. apply forallb_forall. intros [k v] Hin. exact (H k v Hin). }
    rewrite !G by assumption. cbn [bind]. eexists. split; [reflexivity|]. rewrite Nat.eqb_eq. split.
    - intros H k v Hk. apply get_in in Hk; [|exact N1]. apply get_in; [exact N2|].
      apply length_zero_iff_nil in H. destruct (existsb (fun y => keq (fst (k, v)) (fst y) && veq (snd (k, v)) (snd y)) d2) eqn:E.
      + apply existsb_exists in E as ([k' v'] & Hin & E). apply andb_true_iff in E as (E1 & E2). cbn in E1, E2.
        apply keq_ok in E1 as ->. apply veq_ok in E2 as ->. exact Hin.
      + exfalso. assert (Hf : In (k, v) (filter (fun x => negb (existsb (fun y => keq (fst x) (fst y) && veq (snd x) (snd y)) d2)) d1)).
        { apply filter_In. split; [exact Hk|]. now rewrite E. }
        rewrite H in Hf. exact Hf.
    - intros H. apply length_zero_iff_nil. destruct (filter _ d1) as [|[k v] l] eqn:E; [reflexivity|]. exfalso.
      assert (Hin : In (k, v) (filter (fun x => negb (existsb (fun y => keq (fst x) (fst y) && veq (snd x) (snd y)) d2)) d1)) by (rewrite E; now left).
      apply filter_In in Hin as (Hin & Hneg). apply get_in in Hin; [|exact N1]. apply H in Hin. apply get_in in Hin; [|exact N2].
      apply negb_true_iff in Hneg. assert (existsb (fun y => keq (fst (k, v)) (fst y) && veq (snd (k, v)) (snd y)) d2 = true); [|congruence].
      apply existsb_exists. exists (k, v). split; [exact Hin|]. cbn [fst snd]. apply andb_true_iff. split; [now apply keq_ok|now apply veq_ok].
  Qed.

  Theorem match_both d1 d2 : NoDup (map fst d1) -> NoDup (map fst d2) -> hashed d1 -> hashed d2 ->
    dicts_exact_match keq veq hashable d1 d2 = Ok true -> dicts_exact_match keq veq hashable d2 d1 = Ok true ->
    forall k, get d1 k = get d2 k.
  Proof.
    intros N1 N2 H1 H2 E1 E2 k. destruct (exact_match d1 d2 N1 N2 H1 H2) as (b & X1 & P1). destruct (exact_match d2 d1 N2 N1 H2 H1) as (b' & X2 & P2).
    rewrite E1 in X1. injection X1 as <-. rewrite E2 in X2. injection X2 as <-.
    destruct (get d1 k) as [v|] eqn:G1.
    - symmetry. exact (proj1 P1 eq_refl k v G1).
    - destruct (get d2 k) as [v|] eqn:G2; [|reflexivity]. pose proof (proj1 P2 eq_refl k v G2). congruence.
  Qed.

  (** an empty dictionary matches every other *)
  Lemma match_empty d : hashed d -> dicts_exact_match keq veq hashable [] d = Ok true.
  Proof.
    intros H. unfold dicts_exact_match, item_set. cbn [forallb bind].
    replace (forallb _ d) with true; [reflexivity|]. symmetry. apply forallb_forall. intros [k v] Hin. exact (H k v Hin).
  Qed.
  Lemma match_unhashable d1 d2 k v : In (k, v) (d1 ++ d2) -> hashable v = false -> dicts_exact_match keq veq hashable d1 d2 = Err TypeError.
  Proof.
    intros Hin Hv. assert (G : forall d, In (k, v) d -> forallb (fun kv : K * V => hashable (snd kv)) d = false).
    { intros d H. apply not_true_is_false. intros E. rewrite forallb_forall in E. specialize (E _ H). cbn in E. congruence. }
    unfold dicts_exact_match, item_set. apply in_app_or in Hin as [H|H].
    - now rewrite (G d1 H).
    - rewrite (G d2 H). now destruct (forallb _ d1).
  Qed.
End dicts.

Lemma set_repeat n k i : (k < n)%nat -> nth i (list_set (repeat 0 n) k 1) 0 = if Nat.eqb i k then 1 else 0.
Proof.
  revert k i. induction n as [|n IH]; intros k i Hk; [lia|]. destruct k as [|k]; cbn [repeat list_set].
  - destruct i as [|i]; [reflexivity|]. cbn [nth Nat.eqb]. apply nth_repeat.
  - destruct i as [|i]; [reflexivity|]. cbn [nth Nat.eqb]. apply IH. lia.
Qed.
Lemma set_length {A} (l : list A) k x : length (list_set l k x) = length l.
Proof. revert k. induction l as [|y l IH]; intros [|k]; cbn [list_set length]; auto. Qed.

Lemma index_in n label : - Z.of_nat n <= label < Z.of_nat n ->
  py_index (repeat 0 n) label = Ok (Z.to_nat (if label <? 0 then label + Z.of_nat n else label)).
Proof.
  intros H. unfold py_index. rewrite repeat_length. destruct (Z.ltb_spec label 0).
  - replace ((0 <=? label + Z.of_nat n) && (label + Z.of_nat n <? Z.of_nat n)) with true; [reflexivity|]. symmetry. apply andb_true_iff. lia.
  - replace ((0 <=? label) && (label <? Z.of_nat n)) with true; [reflexivity|]. symmetry. apply andb_true_iff. lia.
Qed.

Theorem unit_vector n label : 0 <= label < n ->
  exists v, unitizer n label = Ok v /\ length v = Z.to_nat n /\ forall i, nth i v 0 = if Z.of_nat i =? label then 1 else 0.
Proof.
  intros H. unfold unitizer. destruct (Z.ltb_spec n 0); [lia|]. unfold py_set. rewrite index_in by lia. cbn [bind].
  destruct (Z.ltb_spec label 0); [lia|]. eexists. split; [reflexivity|]. split; [now rewrite set_length, repeat_length|].
  intros i. rewrite set_repeat by lia. destruct (Nat.eqb_spec i (Z.to_nat label)), (Z.eqb_spec (Z.of_nat i) label); try reflexivity; lia.
Qed.
Theorem unit_vectors_differ n a b v : 0 <= a < n -> 0 <= b < n -> unitizer n a = Ok v -> unitizer n b = Ok v -> a = b.
Proof.
  intros Ha Hb E1 E2. destruct (unit_vector n a Ha) as (v1 & X1 & _ & P1). destruct (unit_vector n b Hb) as (v2 & X2 & _ & P2).
  rewrite E1 in X1. injection X1 as <-. rewrite E2 in X2. injection X2 as <-.
  specialize (P1 (Z.to_nat a)). specialize (P2 (Z.to_nat a)). rewrite P1 in P2. rewrite Z2Nat.id in P2 by lia. rewrite Z.eqb_refl in P2.
  destruct (Z.eqb_spec a b); [assumption|discriminate].
Qed.
Theorem unit_outside n label : label < - n \/ n <= label -> 0 <= n -> unitizer n label = Err IndexError.
Proof.
  intros H Hn. unfold unitizer. destruct (Z.ltb_spec n 0); [lia|]. unfold py_set, py_index. rewrite repeat_length, Z2Nat.id by lia.
  destruct (Z.ltb_spec label 0).
  - replace ((0 <=? label + n) && (label + n <? n)) with false; [reflexivity|]. symmetry. apply andb_false_iff. lia.
  - replace ((0 <=? label) && (label <? n)) with false; [reflexivity|]. symmetry. apply andb_false_iff. lia.
Qed.
(** a negative label stands for another class *)
Theorem unit_negative n label : 0 <= label < n -> unitizer n (label - n) = unitizer n label.
Proof.
  intros H. unfold unitizer. destruct (Z.ltb_spec n 0); [lia|]. unfold py_set. rewrite !index_in by lia.
  destruct (Z.ltb_spec (label - n) 0); [|lia]. destruct (Z.ltb_spec label 0); [lia|]. do 3 f_equal. lia.
Qed.

Lemma dir_example : let float_of (s : pystr) : option Z := if streq s (lit "1.0") then Some 10 else None in
  let d := [(lit "alpha", UOne (UNum (lit "1.0") None)); (lit "alpha_decay", UOne (UInt (-1)))] in
  path_text true ([lit "tmp"] ++ [join_params d]) = lit "/tmp/alpha-1.0_alpha_decay--1" /\ Forall plain [lit "tmp"] /\ NoDup (map fst d) /\
  (forall k v, In (k, v) d -> name_like float_of (fun _ => false) k /\ ~ In dash k /\
     exists r, comes_back float_of Z.opp (fun _ => false) v r) /\
  get_dir_params float_of Z.opp (fun _ => None) (fun _ => false) (fun _ _ => false) (lit "/tmp/alpha-1.0_alpha_decay--1") [(IStr (lit "n"), POne (IInt 4))]
  = Ok (lit "/tmp", [(IStr (lit "n"), POne (IInt 4)); (IStr (lit "alpha"), POne (IFloat 10)); (IStr (lit "alpha_decay"), POne (IInt (-1)))]).
Proof.
  intros float_of d. split; [reflexivity|]. split.
  { repeat constructor; try discriminate. cbn. unfold slash. lia. }
  split.
  { constructor; [|constructor; [intros []|constructor]]. intros [H|[]]. discriminate. }
  assert (S : forall s, forallb allowed s = true -> Forall safe s).
  { intros s H. apply Forall_forall. intros c Hc. rewrite forallb_forall in H. now apply allowed_safe, H. }
  assert (N : forall s, forallb allowed s = true -> isnumeric (fun _ => false) s = false ->
    streq s (lit "None") = false -> float_of s = None -> name_like float_of (fun _ => false) s).
  { intros s H1 H2 H3 H4. split; [auto|]. split; [exact H2|]. split; [intros ->; discriminate|exact H4]. }
  split; [|reflexivity].
  intros k v H. repeat destruct H as [H|H]; try (injection H as <- <-); try destruct H.
  - split; [apply N; reflexivity|]. split; [cbn; unfold dash; lia|]. eexists. apply comes_one.
    eapply back_num; [|reflexivity|discriminate|reflexivity].
    split; [apply S; reflexivity|]. split; cbn; unfold dash, underscore; lia.
  - split; [apply N; reflexivity|]. split; [cbn; unfold dash; lia|]. eexists. apply comes_negative; [lia|reflexivity].
Qed.
