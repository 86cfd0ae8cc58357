(** Facts about the strings of utilities.py. *)
From Coq Require Import Permutation Sorting.Sorted.
From Verif Require Import Proofs.DictFacts Proofs.ParamsFacts Proofs.StrFacts Proofs.ProtocolFacts
  Proofs.FileNamesFacts.
From Verif Require Import Model.UtilNames Spec.UtilNames.
Open Scope Z_scope.

Lemma uclean_in s c : In c (uclean s) <-> In c s /\ safe c /\ c <> dash.
Proof.
  unfold uclean. rewrite filter_In, andb_true_iff, allowed_safe, negb_true_iff, Z.eqb_neq. reflexivity.
Qed.
Lemma uclean_id s : Forall safe s -> ~ In dash s -> uclean s = s.
Proof.
  unfold uclean. induction 1 as [|c s Hc _ IH]; intros N; cbn; [reflexivity|].
  apply allowed_safe in Hc. rewrite Hc. cbn [andb].
  destruct (Z.eqb_spec c dash) as [->|]; [exfalso; apply N; now left|]. cbn [negb].
  rewrite IH; [reflexivity|]. intros H; apply N; now right.
Qed.

Section back.
  Context {F : Type} (float_of : pystr -> option F) (fneg : F -> F).
  Variable uni : pystr -> option Z.
  Variable uninumeric : pystr -> bool.
  Variable numeq : @item_ F -> @item_ F -> bool.
  Notation split_item := (split_item float_of uni uninumeric).
  Notation usplit_loop := (usplit_loop float_of fneg uni uninumeric numeq).

  Lemma safe_ascii s : Forall safe s -> forallb (fun c => (0 <=? c) && (c <? 128)) s = true.
  Proof.
    intros H. apply forallb_forall. intros c Hc. rewrite Forall_forall in H. specialize (H c Hc).
    unfold safe in H. apply andb_true_iff. rewrite Z.leb_le, Z.ltb_lt. lia.
  Qed.
  Lemma isnumeric_digits s : s <> [] -> forallb is_digit s = true -> isnumeric uninumeric s = true.
  Proof.
    intros H1 H2. unfold isnumeric. rewrite safe_ascii.
    - destruct s; [contradiction|exact H2].
    - apply Forall_forall. intros c Hc. rewrite forallb_forall in H2. now apply safe_digit, H2.
  Qed.
  Lemma split_item_safe s : Forall safe s -> exists i, split_item s = Ok i.
  Proof.
    intros H. unfold UtilNames.split_item, isnumeric. rewrite (safe_ascii s H).
    destruct s as [|c s].
    - destruct (streq _ _); [eauto|]. destruct (float_of _); eauto.
    - destruct (forallb is_digit (c :: s)) eqn:E.
      + rewrite int_digits; [eauto|discriminate|exact E].
      + destruct (streq _ _); [eauto|]. destruct (float_of _); eauto.
  Qed.
  Lemma split_item_name s : name_like float_of uninumeric s -> split_item s = Ok (IStr s).
  Proof.
    intros (_ & H1 & H2 & H3). unfold UtilNames.split_item. rewrite H1.
    destruct (streq s (lit "None")) eqn:E; [now apply streq_spec in E|]. now rewrite H3.
  Qed.
  Lemma split_item_nat n : 0 <= n -> split_item (str_of_nat n) = Ok (IInt n).
  Proof.
    intros Hn. destruct (str_of_nat_spec n Hn) as (A & B & C). unfold UtilNames.split_item.
    rewrite isnumeric_digits by assumption. rewrite int_digits by assumption. now rewrite C.
  Qed.

  Definition uvalue (items : list (@item_ F)) : result (@param_ F) :=
    match items with
    | [v] => Ok (POne v)
    | [v; w] =>
        match v with
        | IStr [] =>
            do neg <- (match w with
                       | IInt n => Ok (IInt (- n))
                       | IFloat f => Ok (IFloat (fneg f))
                       | _ => Err TypeError
                       end);
            Ok (POne neg)
        | IStr _ => Ok (PMany [v; w])
        | _ => Err TypeError
        end
    | _ => Ok (PMany items)
    end.

  Lemma mapM_length {A B} (f : A -> result B) l r : mapM f l = Ok r -> length r = length l.
  Proof.
    revert r. induction l as [|x l IH]; intros r; cbn; [now intros E; injection E as <-|].
    destruct (f x); [|discriminate]. cbn [bind]. destruct (mapM f l); [|discriminate].
    intros E; injection E as <-. cbn. now rewrite (IH _ eq_refl).
  Qed.

  Lemma usplit_glue : forall ws g w t rest params,
    ~ In dash (match g with Some q => q | None => [] end) -> Forall safe (match g with Some q => q | None => [] end) ->
    Forall (fun w => ~ In dash w /\ Forall safe w) ws -> ~ In dash w ->
    usplit_loop g (ws ++ (w ++ dash :: t) :: rest) params =
    do k <- split_item (join [underscore] (match g with Some q => [q] | None => [] end ++ ws ++ [w]));
    do items <- mapM split_item (split dash t);
    do val <- uvalue items;
    usplit_loop None rest (gd_set (item_eq numeq) params k val).
  Proof.
    induction ws as [|w0 ws IH]; intros g w t rest params Hg Hgs Hws Hw.
    - cbn [app UtilNames.usplit_loop]. cbv zeta. unfold split_items.
      match goal with |- context[split dash ?x] =>
        replace x with (join [underscore] (match g with Some q => [q] | None => [] end ++ [w]) ++ dash :: t)
          by (destruct g; cbn; [now rewrite <- app_assoc|reflexivity]) end.
      rewrite split_app.
      assert (N : ~ In dash (join [underscore] (match g with Some q => [q] | None => [] end ++ [w]))).
      { destruct g as [q|]; cbn; [|exact Hw]. rewrite in_app_iff. cbn. unfold underscore, dash in *.
        intros [H|[H|H]]; [contradiction|lia|contradiction]. }
      rewrite (split_none dash _ N). cbn [app mapM].
      destruct (split_item _) as [k|e]; [cbn [bind]|reflexivity].
      pose proof (split_ne dash t) as Hne.
      destruct (mapM split_item (split dash t)) as [items|e] eqn:E; [cbn [bind]|reflexivity].
      apply mapM_length in E.
      destruct items as [|v [|v2 [|v3 items]]].
      + destruct (split dash t); [contradiction|discriminate].
      + reflexivity.
      + cbn [uvalue]. destruct v as [| | |[|]]; try reflexivity. destruct v2; reflexivity.
      + reflexivity.
    - inversion Hws as [|? ? [H1 H1s] H2]; subst. cbn [app UtilNames.usplit_loop].
      cbv zeta. unfold split_items. match goal with |- context[split dash ?x] => set (p := x) end.
      assert (N : ~ In dash p).
      { subst p. destruct g as [q|]; [|exact H1]. rewrite in_app_iff. cbn. unfold underscore, dash in *.
        intros [H|[H|H]]; [contradiction|lia|contradiction]. }
      assert (NS : Forall safe p).
      { subst p. destruct g as [q|]; [|exact H1s]. apply Forall_app. split; [exact Hgs|].
        constructor; [apply safe_underscore|exact H1s]. }
      rewrite (split_none dash _ N). cbn [mapM]. destruct (split_item_safe p NS) as (i & ->). cbn [bind].
      rewrite IH by assumption.
      replace (join [underscore] ([p] ++ ws ++ [w])) with
        (join [underscore] (match g with Some q => [q] | None => [] end ++ (w0 :: ws) ++ [w])); [reflexivity|].
      subst p. destruct g as [q|]; cbn [app]; [|reflexivity].
      destruct (ws ++ [w]) as [|p' l'] eqn:E; [now destruct ws|].
      change (q :: w0 :: p' :: l') with ([q] ++ [w0] ++ p' :: l').
      rewrite (join_app [underscore] [q]) by discriminate.
      rewrite (join_app [underscore] [w0]) by discriminate.
      rewrite (join_cons [underscore] (q ++ underscore :: w0)) by discriminate. cbn.
      now rewrite <- app_assoc.
  Qed.

  Lemma in_join x sep ws w : In w ws -> In x w -> In x (join sep ws).
  Proof.
    induction ws as [|a ws IH]; [intros []|]. intros Hw Hx. destruct ws as [|b ws].
    - destruct Hw as [->|[]]. exact Hx.
    - rewrite join_cons by discriminate. rewrite !in_app_iff. destruct Hw as [->|Hw]; [now left|right; right; auto].
  Qed.

  Lemma usplit_entry k t rest params : ~ In dash k -> Forall safe k -> ~ In underscore t ->
    usplit_loop None (split underscore (k ++ [dash] ++ t) ++ rest) params =
    do k' <- split_item k;
    do items <- mapM split_item (split dash t);
    do val <- uvalue items;
    usplit_loop None rest (gd_set (item_eq numeq) params k' val).
  Proof.
    intros Hk Hks Ht. rewrite split_entry by exact Ht. rewrite <- app_assoc. cbn [app].
    assert (HF : Forall (fun w => ~ In dash w /\ Forall safe w) (split underscore k)).
    { apply Forall_forall. intros w Hw.
      assert (HI : forall c, In c w -> In c k).
      { intros c Hc. rewrite <- (join_split underscore k). eapply in_join; eassumption. }
      split; [intros Hd; apply Hk, HI, Hd|]. apply Forall_forall. intros c Hc.
      rewrite Forall_forall in Hks. apply Hks, HI, Hc. }
    pose proof (split_ne underscore k) as Hne.
    assert (Esp := app_removelast_last [] Hne).
    rewrite usplit_glue.
    - cbn [app].
      match goal with |- context[join [underscore] ?x] =>
        replace (join [underscore] x) with k
          by (transitivity (join [underscore] (split underscore k)); [symmetry; apply join_split|];
              apply f_equal; exact Esp) end.
      reflexivity.
    - intros [].
    - constructor.
    - rewrite Esp in HF. now apply Forall_app in HF as [HF _].
    - rewrite Esp in HF. apply Forall_app in HF as [_ HF]. now inversion HF.
  Qed.

  Lemma item_back_text v i : item_back float_of uninumeric v i ->
    uclean (ustr v) = ustr v /\ ~ In dash (ustr v) /\ ~ In underscore (ustr v) /\
    split_item (ustr v) = Ok i.
  Proof.
    intros [|n Hn|s Hs Hd Hu|b Hb|s b f (W1 & W2 & W3) N NN Hf].
    - repeat split; try reflexivity; cbn; unfold dash, underscore; lia.
    - cbn [ustr]. destruct (str_of_nat_spec n Hn) as (A & B & C).
      assert (D : ~ In dash (str_of_int n)).
      { rewrite str_of_nat_pos by exact Hn. apply (digits_no _ _ B). unfold dash; lia. }
      split; [apply uclean_id; [apply safe_int|exact D]|]. split; [exact D|].
      split; [apply str_of_int_no|]. rewrite str_of_nat_pos by exact Hn. now apply split_item_nat.
    - cbn [ustr]. split; [apply uclean_id; [apply Hs|exact Hd]|]. split; [exact Hd|]. split; [exact Hu|].
      now apply split_item_name.
    - assert (D : ~ In dash (ustr (UBool b))) by (destruct b; cbn; unfold dash; lia).
      split; [apply uclean_id; [apply Hb|exact D]|]. split; [exact D|].
      split; [destruct b; cbn; unfold underscore; lia|]. now apply split_item_name.
    - cbn [ustr]. split; [now apply uclean_id|]. split; [exact W2|]. split; [exact W3|].
      unfold UtilNames.split_item. rewrite N.
      destruct (streq s (lit "None")) eqn:E; [now apply streq_spec in E|]. now rewrite Hf.
  Qed.

  Lemma items_back_text l is_ : Forall2 (item_back float_of uninumeric) l is_ ->
    Forall (fun w => ~ In dash w) (map (fun v => uclean (ustr v)) l) /\
    Forall (fun w => ~ In underscore w) (map (fun v => uclean (ustr v)) l) /\
    mapM split_item (map (fun v => uclean (ustr v)) l) = Ok is_.
  Proof.
    induction 1 as [|v i l is_ Hv _ (I1 & I2 & I3)]; [repeat split; constructor|].
    destruct (item_back_text v i Hv) as (E1 & E2 & E3 & E4). cbn [map mapM]. rewrite E1.
    split; [constructor; assumption|]. split; [constructor; assumption|].
    rewrite E4. cbn [bind]. now rewrite I3.
  Qed.
  Lemma join_no x sep ws : ~ In x sep -> Forall (fun w => ~ In x w) ws -> ~ In x (join sep ws).
  Proof.
    intros Hs H Hin. enough (Q : Forall (fun c => c <> x) (join sep ws)) by (rewrite Forall_forall in Q; now apply (Q _ Hin)).
    apply join_forall; [apply Forall_forall; intros c Hc ->; contradiction|].
    eapply Forall_impl; [|exact H]. intros w Hw. apply Forall_forall. intros c Hc ->. contradiction.
  Qed.

  Lemma empty_item : float_of [] = None -> split_item [] = Ok (IStr []).
  Proof. intros H. unfold UtilNames.split_item. cbn. now rewrite H. Qed.

  Lemma comes_back_text v r : comes_back float_of fneg uninumeric v r ->
    ~ In underscore (join_items v false) /\
    exists items, mapM split_item (split dash (join_items v false)) = Ok items /\ uvalue items = Ok r.
  Proof.
    intros [u i Hu|n Hn H0|s b f (W1 & W2 & W3) N NN Hf H0|s w u i Hs Hv Hw ->|l is_ Hl Hf].
    - destruct (item_back_text u i Hu) as (E1 & E2 & E3 & E4).
      assert (E : join_items (UOne u) false = ustr u) by (destruct u; try reflexivity; exact E1).
      rewrite E. split; [exact E3|]. exists [i]. rewrite (split_none dash _ E2). cbn [mapM]. rewrite E4.
      split; reflexivity.
    - cbn [join_items ustr]. split; [apply str_of_int_no|].
      assert (E : str_of_int n = dash :: str_of_nat (- n)).
      { unfold str_of_int. apply Z.ltb_lt in Hn. now rewrite Hn. }
      rewrite E. cbn [split]. rewrite Z.eqb_refl. rewrite split_dash_nat by lia. cbn [mapM].
      rewrite (empty_item H0). cbn [bind]. rewrite split_item_nat by lia. cbn [bind].
      eexists. split; [reflexivity|]. cbn [uvalue bind]. now rewrite Z.opp_involutive.
    - cbn [join_items ustr]. split; [intros [H|H]; [unfold dash, underscore in H; lia|contradiction]|].
      cbn [split]. rewrite Z.eqb_refl. rewrite (split_none dash s W2). cbn [mapM].
      rewrite (empty_item H0). cbn [bind]. unfold UtilNames.split_item. rewrite N.
      destruct (streq s (lit "None")) eqn:E; [now apply streq_spec in E|]. rewrite Hf. cbn [bind].
      eexists. split; [reflexivity|]. reflexivity.
    - assert (H2 : Forall2 (item_back float_of uninumeric) [UStr s; w] [IStr s; i]) by (constructor; [exact Hv|constructor; [exact Hw|constructor]]).
      destruct (items_back_text _ _ H2) as (I1 & I2 & I3). cbn [join_items].
      split; [apply join_no; [cbn; unfold dash, underscore; lia|exact I2]|].
      rewrite split_join by (try discriminate; exact I1). exists [IStr s; i]. split; [exact I3|].
      cbn [uvalue]. destruct s; [contradiction|reflexivity].
    - destruct (items_back_text _ _ Hf) as (I1 & I2 & I3). cbn [join_items].
      split; [apply join_no; [cbn; unfold dash, underscore; lia|exact I2]|].
      rewrite split_join; [|destruct l; [cbn in Hl; lia|discriminate]|exact I1]. exists is_. split; [exact I3|].
      apply Forall2_len in Hf. rewrite Hf in Hl. destruct is_ as [|a [|b [|c is_]]]; cbn in Hl; try lia. reflexivity.
  Qed.

  Lemma item_eq_str s (i : @item_ F) : item_eq numeq (IStr s) i = true <-> i = IStr s.
  Proof. destruct i; cbn; try (split; discriminate). rewrite streq_spec. split; congruence. Qed.
  Lemma item_eq_str2 s (i : @item_ F) : item_eq numeq i (IStr s) = true <-> i = IStr s.
  Proof. destruct i; cbn; try (split; discriminate). rewrite streq_spec. split; congruence. Qed.

  Lemma get_set_str (params : list (@item_ F * @param_ F)) k v k' :
    (forall i, In i (map fst params) -> exists s, i = IStr s) ->
    gd_get (item_eq numeq) (gd_set (item_eq numeq) params (IStr k) v) (IStr k') =
    if streq k k' then Some v else gd_get (item_eq numeq) params (IStr k').
  Proof.
    intros HK. induction params as [|[k0 v0] params IH]; [reflexivity|]. cbn [gd_set].
    destruct (HK k0) as (s0 & ->); [now left|].
    specialize (IH (fun i H => HK i (or_intror H))). unfold item_eq at 2. fold (item_eq numeq).
    change (item_eq numeq (IStr s0) (IStr k)) with (streq s0 k).
    destruct (streq s0 k) eqn:E; cbn [gd_get].
    - apply streq_spec in E as ->. change (item_eq numeq (IStr k) (IStr k')) with (streq k k').
      now destruct (streq k k').
    - change (item_eq numeq (IStr s0) (IStr k')) with (streq s0 k').
      destruct (streq s0 k') eqn:E2; [|exact IH].
      destruct (streq k k') eqn:E3; [|reflexivity]. apply streq_spec in E2, E3. subst.
      now rewrite (proj2 (streq_spec _ _) eq_refl) in E.
  Qed.
  Lemma set_keys_str (params : list (@item_ F * @param_ F)) k v :
    (forall i, In i (map fst params) -> exists s, i = IStr s) ->
    forall i, In i (map fst (gd_set (item_eq numeq) params (IStr k) v)) <-> i = IStr k \/ In i (map fst params).
  Proof.
    induction params as [|[k0 v0] params IH]; intros HK i; [cbn; firstorder congruence|]. cbn [gd_set].
    specialize (IH (fun i H => HK i (or_intror H))).
    destruct (item_eq numeq k0 (IStr k)) eqn:E.
    - apply item_eq_str2 in E as ->. cbn. firstorder congruence.
    - cbn [map fst In]. rewrite IH. tauto.
  Qed.

  Lemma usplit_entries : forall (d : list (pystr * uval)) params,
    NoDup (map fst d) ->
    (forall k v, In (k, v) d -> name_like float_of uninumeric k /\ ~ In dash k /\
       exists r, comes_back float_of fneg uninumeric v r) ->
    (forall i, In i (map fst params) -> exists s, i = IStr s) ->
    exists params',
      usplit_loop None (flat_map (fun p => split underscore (fst p ++ [dash] ++ join_items (snd p) false)) d) params
      = Ok params' /\
      (forall i, In i (map fst params') <-> In i (map fst params) \/ exists k, i = IStr k /\ In k (map fst d)) /\
      (forall k, ~ In k (map fst d) -> gd_get (item_eq numeq) params' (IStr k) = gd_get (item_eq numeq) params (IStr k)) /\
      (forall k v r, In (k, v) d -> comes_back float_of fneg uninumeric v r ->
         gd_get (item_eq numeq) params' (IStr k) = Some r).
  Proof.
    induction d as [|[k v] d IH]; intros params HN HD HK.
    - exists params. split; [reflexivity|]. split; [|split; [reflexivity|intros ? ? ? []]].
      intros i. split; [now left|]. intros [H|(k & _ & [])]. exact H.
    - cbn [flat_map fst snd]. destruct (HD k v) as (Hk & Hd & r & Hr); [now left|].
      destruct (comes_back_text v r Hr) as (U & items & E1 & E2).
      rewrite usplit_entry by (try assumption; apply Hk). rewrite (split_item_name k Hk). cbn [bind].
      rewrite E1. cbn [bind]. rewrite E2. cbn [bind].
      inversion HN as [|? ? N1 N2]; subst.
      destruct (IH (gd_set (item_eq numeq) params (IStr k) r)) as (params' & E & P1 & P2 & P3).
      + exact N2.
      + intros k' v' H. apply HD. now right.
      + intros i Hi. apply set_keys_str in Hi; [|exact HK]. destruct Hi as [->|Hi]; eauto.
      + exists params'. split; [exact E|]. split; [|split].
        * intros i. rewrite P1, set_keys_str by exact HK. cbn [map fst In]. split.
          -- intros [[->|H]|(k' & -> & H)]; eauto.
          -- intros [H|(k' & -> & [->|H])]; eauto.
        * intros k' Hk'. rewrite P2 by (intros H; apply Hk'; now right).
          rewrite get_set_str by exact HK. destruct (streq k k') eqn:Es; [|reflexivity].
          apply streq_spec in Es as ->. exfalso. apply Hk'. now left.
        * intros k' v' r' [H|H] Hr'.
          -- injection H as <- <-. rewrite P2 by exact N1. rewrite get_set_str by exact HK.
             rewrite (proj2 (streq_spec k k) eq_refl).
             destruct (comes_back_text v r' Hr') as (_ & items' & E1' & E2'). congruence.
          -- eapply P3; eassumption.
  Qed.

  Lemma uround d : NoDup (map fst d) -> d <> [] ->
    (forall k v, In (k, v) d -> name_like float_of uninumeric k /\ ~ In dash k /\
       exists r, comes_back float_of fneg uninumeric v r) ->
    exists params, usplit_params float_of fneg uni uninumeric numeq (join_params d) = Ok params /\
      (forall i, In i (map fst params) <-> exists k, i = IStr k /\ In k (map fst d)) /\
      (forall k v r, In (k, v) d -> comes_back float_of fneg uninumeric v r ->
         gd_get (item_eq numeq) params (IStr k) = Some r).
  Proof.
    intros HN Hne HD. pose proof (sort_items_perm d) as HP.
    destruct (usplit_entries (sort_items d) []) as (params & E & P1 & _ & P3).
    - now apply sort_items_nodup.
    - intros k v H. apply HD. eapply Permutation_in; [apply Permutation_sym; exact HP|exact H].
    - intros ? [].
    - exists params. split; [|split].
      + unfold usplit_params, join_params. rewrite split_join_gen.
        * rewrite flat_map_concat_map, map_map, <- flat_map_concat_map. exact E.
        * intros H. apply map_eq_nil in H. rewrite H in HP. apply Permutation_sym, Permutation_nil in HP. contradiction.
      + intros i. rewrite P1. split.
        * intros [[]|(k & -> & H)]. exists k. split; [reflexivity|].
          eapply Permutation_in; [apply Permutation_map, Permutation_sym; exact HP|exact H].
        * intros (k & -> & H). right. exists k. split; [reflexivity|].
          eapply Permutation_in; [apply Permutation_map; exact HP|exact H].
      + intros k v r H Hr. eapply P3; [|exact Hr]. eapply Permutation_in; [exact HP|exact H].
  Qed.

  (** two numbers *)
  Lemma two_numbers_raise k m n : name_like float_of uninumeric k -> ~ In dash k -> 0 <= m -> 0 <= n ->
    usplit_params float_of fneg uni uninumeric numeq
      (join_params [(k, UList [UInt m; UInt n])]) = Err TypeError.
  Proof.
    intros Hk Hd Hm Hn. unfold usplit_params, join_params. cbn [sort_items sort fold_right insert map fst snd join].
    rewrite <- (app_nil_r (split underscore _)).
    assert (H2 : Forall2 (item_back float_of uninumeric) [UInt m; UInt n] [IInt m; IInt n]) by (repeat constructor; assumption).
    destruct (items_back_text _ _ H2) as (I1 & I2 & I3).
    rewrite usplit_entry; [|exact Hd|apply Hk|].
    - rewrite (split_item_name k Hk). cbn [bind join_items].
      rewrite split_join by (try discriminate; exact I1). rewrite I3. reflexivity.
    - cbn [join_items]. apply join_no; [cbn; unfold dash, underscore; lia|exact I2].
  Qed.

  (** the sign of a number in a list *)
  Lemma sign_lost m l : join_items (UList (UInt (- m) :: l)) false = join_items (UList (UInt m :: l)) false.
  Proof.
    cbn [join_items map]. enough (E : uclean (ustr (UInt (- m))) = uclean (ustr (UInt m))) by now rewrite E.
    cbn [ustr].
    assert (G : forall n, n < 0 -> uclean (str_of_int n) = uclean (str_of_int (- n))).
    { intros n Hn. unfold str_of_int. rewrite (proj2 (Z.ltb_lt n 0) Hn).
      destruct (Z.ltb_spec (- n) 0); [lia|]. reflexivity. }
    destruct (Z.lt_trichotomy m 0) as [H|[->|H]]; [|reflexivity|].
    - symmetry. now apply G.
    - rewrite G by lia. now rewrite Z.opp_involutive.
  Qed.
End back.

(** ** Command lines *)
Fixpoint take_values (l : list pystr) : list pystr :=
  match l with x :: l' => if is_option x then [] else x :: take_values l' | [] => [] end.
Lemma group_cons a args : group_args (a :: args) =
  if is_option a then (a, take_values args) :: group_args args else group_args args.
Proof. reflexivity. Qed.
Lemma option_flag k : is_option (lit "--" ++ k) = true.
Proof. reflexivity. Qed.
Lemma group_skip vals rest : Forall (fun s => is_option s = false) vals ->
  group_args (vals ++ rest) = group_args rest.
Proof.
  induction 1 as [|v vals Hv _ IH]; [reflexivity|]. cbn [app]. rewrite group_cons, Hv. exact IH.
Qed.
Lemma take_skip vals rest : Forall (fun s => is_option s = false) vals ->
  take_values (vals ++ rest) = vals ++ take_values rest.
Proof. induction 1 as [|v vals Hv _ IH]; [reflexivity|]. cbn [app take_values]. now rewrite Hv, IH. Qed.

Definition arg_of (p : pystr * uval) : list pystr :=
  match expected (snd p) with
  | None => []
  | Some vals => (lit "--" ++ fst p) :: vals
  end.
Lemma args_flat params : (forall k v, In (k, v) params -> ~ zero_or_one v) ->
  params_to_args params = flat_map arg_of (sort_items params).
Proof.
  intros H. unfold params_to_args.
  assert (H' : forall k v, In (k, v) (sort_items params) -> ~ zero_or_one v).
  { intros k v Hin. apply (H k). eapply Permutation_in; [apply Permutation_sym, sort_items_perm|exact Hin]. }
  revert H'. generalize (sort_items params). clear. intros l H.
  induction l as [|[k v] l IH]; [reflexivity|]. cbn [flat_map].
  rewrite IH by (intros k' v' Hin; apply (H k'); now right). f_equal.
  specialize (H k v (or_introl eq_refl)). unfold arg_of. cbn [fst snd].
  destruct v as [[|[|]|n|s|s [b|]]|vals]; try reflexivity; cbn in H |- *.
  - destruct (Z.eqb_spec n 0); [tauto|]. destruct (Z.eqb_spec n 1); [tauto|]. reflexivity.
  - exfalso. apply H. discriminate.
Qed.
Lemma take_options l : take_values (flat_map arg_of l) = [].
Proof.
  induction l as [|[k v] l IH]; [reflexivity|]. cbn [flat_map]. unfold arg_of at 1. cbn [fst snd].
  destruct (expected v); [reflexivity|exact IH].
Qed.

Lemma args_grouped params : (forall k v, In (k, v) params -> ~ zero_or_one v) ->
  (forall k v vals s, In (k, v) params -> expected v = Some vals -> In s vals -> is_option s = false) ->
  group_args (params_to_args params) =
  flat_map (fun p => match expected (snd p) with
                     | None => []
                     | Some vals => [(lit "--" ++ fst p, vals)]
                     end) (sort_items params).
Proof.
  intros H HV. rewrite args_flat by exact H.
  assert (H' : forall k v vals s, In (k, v) (sort_items params) -> expected v = Some vals -> In s vals -> is_option s = false).
  { intros k v vals s Hin. apply (HV k). eapply Permutation_in; [apply Permutation_sym, sort_items_perm|exact Hin]. }
  revert H'. generalize (sort_items params). clear. intros l H.
  induction l as [|[k v] l IH]; [reflexivity|]. cbn [flat_map fst snd].
  rewrite <- IH by (intros k' v' vals s Hin; apply (H k' v'); now right).
  unfold arg_of at 1. cbn [fst snd]. destruct (expected v) as [vals|] eqn:E; [|reflexivity].
  cbn [app]. rewrite group_cons, option_flag.
  assert (HF : Forall (fun s => is_option s = false) vals).
  { apply Forall_forall. intros s Hs. eapply H; [now left|exact E|exact Hs]. }
  rewrite take_skip, group_skip, take_options, app_nil_r by exact HF. reflexivity.
Qed.

Lemma numbers_dropped k : params_to_args [(k, UOne (UInt 0))] = [] /\
  params_to_args [(k, UOne (UInt 1))] = [lit "--" ++ k].
Proof. split; reflexivity. Qed.

(** ** Numbers at the end *)
Lemma zeros_digits m : forallb is_digit (repeat 48 m) = true.
Proof. induction m; cbn; auto. Qed.
Lemma zeros_value m s : digits_value (repeat 48 m ++ s) = digits_value s.
Proof. unfold digits_value. rewrite fold_left_app. f_equal. induction m; cbn; auto. Qed.

Lemma split_last s t : ~ In dash t -> exists parts, split dash (s ++ dash :: t) = parts ++ [t] /\ join [dash] parts = s.
Proof.
  intros H. exists (split dash s). rewrite split_app, (split_none dash t H). split; [reflexivity|apply join_split].
Qed.

Section number.
  Context {F : Type} (float_of : pystr -> option F).
  Variable uni : pystr -> option Z.

  Lemma number_round s n width : 0 <= n ->
    split_number float_of uni (join_number s n width) = (s, Some (inl n)).
  Proof.
    intros Hn. unfold join_number, split_number. destruct (str_of_nat_spec n Hn) as (A & B & C).
    rewrite <- str_of_nat_pos in A, B, C by exact Hn.
    set (t := match width with Some (S w) => rjust (str_of_int n) (S w) | _ => str_of_int n end).
    assert (D : forallb is_digit t = true /\ t <> [] /\ digits_value t = n).
    { subst t. destruct width as [[|w]|]; [auto| |auto]. unfold rjust. rewrite forallb_app, zeros_digits, B.
      split; [reflexivity|]. split; [|now rewrite zeros_value].
      intros H. apply app_eq_nil in H as [_ H]. contradiction. }
    destruct D as (D1 & D2 & D3).
    assert (ND : ~ In dash t) by (apply (digits_no _ _ D1); unfold dash; lia).
    assert (NP : has_char 46 t = false).
    { apply not_true_is_false. rewrite has_char_in. apply (digits_no _ _ D1). lia. }
    change ([dash] ++ t) with (dash :: t). destruct (split_last s t ND) as (parts & E & J). rewrite E.
    rewrite last_app1, NP, (int_digits uni t D2 D1), D3. cbn [option_map]. now rewrite removelast_app1, J.
  Qed.

  Lemma number_negative s n : n < 0 ->
    split_number float_of uni (join_number s n None) = (s ++ [dash], Some (inl (- n))).
  Proof.
    intros Hn. unfold join_number.
    assert (E : str_of_int n = [dash] ++ str_of_nat (- n)).
    { unfold str_of_int. now rewrite (proj2 (Z.ltb_lt n 0) Hn). }
    rewrite E. rewrite <- (str_of_nat_pos (- n)) by lia.
    rewrite (app_assoc s). apply (number_round (s ++ [dash]) (- n) None). lia.
  Qed.
End number.

(** ** Modifiers *)
Lemma split_modifiers_all s : join [underscore] (let '(n, m) := split_modifiers s None in n :: m) = s.
Proof.
  unfold split_modifiers. pose proof (split_ne underscore s) as H. pose proof (join_split underscore s) as J.
  destruct (split underscore s); [contradiction|exact J].
Qed.

Definition is_mod mods (p : pystr) := existsb (streq p) mods.
Lemma is_mod_in mods p : is_mod mods p = true <-> In p mods.
Proof.
  unfold is_mod. rewrite existsb_exists. split.
  - intros (x & Hx & E). apply streq_spec in E as ->. exact Hx.
  - intros H. exists p. split; [exact H|]. now apply streq_spec.
Qed.
Lemma filter_all {A} (f : A -> bool) l : (forall x, In x l -> f x = true) -> filter f l = l.
Proof.
  induction l as [|x l IH]; intros H; cbn; [reflexivity|]. rewrite H by now left.
  now rewrite IH by (intros; apply H; now right).
Qed.
Lemma filter_none {A} (f : A -> bool) l : (forall x, In x l -> f x = false) -> filter f l = [].
Proof.
  induction l as [|x l IH]; intros H; cbn; [reflexivity|]. rewrite H by now left.
  now rewrite IH by (intros; apply H; now right).
Qed.

Lemma modifiers_round h ms mods :
  (forall p, In p (tl (split underscore h)) -> ~ In p mods) ->
  (forall m, In m ms -> In m mods /\ ~ In underscore m) ->
  split_modifiers (join [underscore] (h :: ms)) (Some mods) = (h, ms).
Proof.
  intros Hh Hm. unfold split_modifiers.
  assert (E : split underscore (join [underscore] (h :: ms)) = split underscore h ++ ms).
  { rewrite split_join_gen by discriminate. cbn [flat_map]. f_equal.
    clear Hh. induction ms as [|m ms IH]; [reflexivity|]. cbn [flat_map].
    rewrite (split_none underscore m) by (apply Hm; now left). cbn [app]. f_equal.
    apply IH. intros m' H'. apply Hm. now right. }
  rewrite E. pose proof (split_ne underscore h) as H. pose proof (join_split underscore h) as J.
  destruct (split underscore h) as [|p0 ps]; [contradiction|]. cbn [app tl] in *. fold (is_mod mods).
  rewrite !filter_app.
  rewrite (filter_all _ ps), (filter_none _ ps), (filter_none _ ms), (filter_all _ ms).
  - cbn [app]. rewrite app_nil_r. now rewrite J.
  - intros m Hin. apply is_mod_in. now apply Hm.
  - intros m Hin. apply negb_false_iff. apply is_mod_in. now apply Hm.
  - intros p Hp. apply not_true_is_false. intros Hq. apply is_mod_in in Hq. now apply (Hh p).
  - intros p Hp. apply negb_true_iff. apply not_true_is_false. intros Hq. apply is_mod_in in Hq. now apply (Hh p).
Qed.

Lemma remove_in values sort_ mods :
  NoDup (remove_modifiers values sort_ mods) /\
  (forall x, In x (remove_modifiers values sort_ mods) <->
     exists v, In v values /\ fst (split_modifiers v mods) = x) /\
  (sort_ = true -> StronglySorted (fun x y => strle x y = true) (remove_modifiers values sort_ mods)).
Proof.
  set (names := fold_left (fun features f =>
      let name := fst (split_modifiers f mods) in
      if existsb (streq name) features then features else features ++ [name]) values []).
  assert (HG : NoDup names /\ forall x, In x names <-> exists v, In v values /\ fst (split_modifiers v mods) = x).
  { assert (HG : forall l acc, NoDup acc ->
       let r := fold_left (fun features f =>
          let name := fst (split_modifiers f mods) in
          if existsb (streq name) features then features else features ++ [name]) l acc in
       NoDup r /\ forall x, In x r <-> In x acc \/ exists v, In v l /\ fst (split_modifiers v mods) = x).
    { induction l as [|v l IH]; intros acc HN; cbn zeta; cbn [fold_left].
      - split; [exact HN|]. intros x. split; [now left|]. intros [H|(v & [] & _)]. exact H.
      - fold (is_mod acc). cbv zeta. set (name := fst (split_modifiers v mods)).
        change (existsb (streq name) acc) with (is_mod acc name).
        destruct (is_mod acc name) eqn:E.
        + apply is_mod_in in E. destruct (IH acc HN) as [I1 I2]. split; [exact I1|]. intros x. rewrite I2. split.
          * intros [H|(v' & H & <-)]; [now left|]. right. exists v'. split; [now right|reflexivity].
          * intros [H|(v' & [->|H] & <-)]; [now left|now left|]. right. eauto.
        + assert (E' : ~ In name acc) by (rewrite <- is_mod_in, E; discriminate).
          destruct (IH (acc ++ [name])) as [I1 I2].
          { eapply Permutation_NoDup; [apply Permutation_cons_append|]. constructor; assumption. }
          split; [exact I1|]. intros x. rewrite I2, in_app_iff. split.
          * intros [[H|[<-|[]]]|(v' & H & <-)]; [now left| |].
            -- right. exists v. split; [now left|reflexivity].
            -- right. exists v'. split; [now right|reflexivity].
          * intros [H|(v' & [->|H] & <-)]; [now left; left|left; right; now left|]. right. eauto. }
    destruct (HG values [] (NoDup_nil _)) as [G1 G2]. split; [exact G1|]. intros x. unfold names. rewrite G2.
    split; [intros [[]|H]; exact H|now right]. }
  destruct HG as [G1 G2]. unfold remove_modifiers. fold names. destruct sort_.
  - split; [|split].
    + eapply Permutation_NoDup; [apply sort_perm|exact G1].
    + intros x. rewrite <- G2. split; apply Permutation_in; [apply Permutation_sym|]; apply sort_perm.
    + intros _. apply (sort_sorted strle strle_total strle_trans).
  - split; [exact G1|]. split; [exact G2|discriminate].
Qed.

Lemma starts_app m h : starts m h = true <-> exists t, h = m ++ t.
Proof.
  revert h. induction m as [|a m IH]; intros h; cbn; [split; [eauto|reflexivity]|].
  destruct h as [|b h]; [split; [discriminate|intros (t & E); discriminate]|].
  rewrite andb_true_iff, Z.eqb_eq, IH. split.
  - intros [-> (t & ->)]. eauto.
  - intros (t & E). injection E as -> ->. eauto.
Qed.
Lemma contains_spec m h : contains_str m h = true <-> exists s t, h = s ++ m ++ t.
Proof.
  induction h as [|b h IH]; cbn; rewrite orb_true_iff, starts_app.
  - split.
    + intros [(t & E)|]; [|discriminate]. exists [], t. exact E.
    + intros (s & t & E). destruct s; [|discriminate]. left. eauto.
  - rewrite IH. split.
    + intros [(t & E)|(s & t & ->)]; [exists [], t; exact E|exists (b :: s), t; reflexivity].
    + intros (s & t & E). destruct s as [|c s]; [left; eauto|]. injection E as -> ->. right; eauto.
Qed.
Lemma add_spec headers mods keep x : In x (add_modifiers headers mods keep) <->
  exists h, In h headers /\ ((keep = true /\ x = h) \/
    exists m, In m mods /\ (forall s t, h <> s ++ m ++ t) /\ x = h ++ [underscore] ++ m).
Proof.
  unfold add_modifiers. rewrite in_flat_map. split.
  - intros (h & Hh & H). exists h. split; [exact Hh|]. apply in_app_iff in H as [H|H].
    + destruct keep; [|destruct H]. destruct H as [<-|[]]. now left.
    + apply in_map_iff in H as (m & <- & H). apply filter_In in H as [Hm H]. right. exists m.
      split; [exact Hm|]. split; [|reflexivity]. intros s t E. apply negb_true_iff in H.
      rewrite (proj2 (contains_spec m h)) in H by eauto. discriminate.
  - intros (h & Hh & H). exists h. split; [exact Hh|]. apply in_app_iff.
    destruct H as [[-> ->]|(m & Hm & N & ->)]; [left; now left|]. right. apply in_map_iff. exists m.
    split; [reflexivity|]. apply filter_In. split; [exact Hm|]. apply negb_true_iff, not_true_is_false.
    rewrite contains_spec. intros (s & t & E). now apply (N s t).
Qed.
Lemma substring_not_added : exists h m, add_modifiers [h] [m] false = [] /\
  ~ In m (snd (split_modifiers h (Some [m]))).
Proof. exists (lit "trace_rate"), (lit "trace"). split; [reflexivity|]. intros []. Qed.

Lemma match_spec required potential : NoDup required -> NoDup potential ->
  (match_sets required potential = -1 <-> ~ incl required potential) /\
  (incl required potential -> match_sets required potential =
     Z.of_nat (length (filter (fun x => negb (existsb (streq x) required)) potential))).
Proof.
  intros H1 H2. unfold match_sets.
  assert (HB : forallb (fun r => existsb (streq r) potential) required = true <-> incl required potential).
  { rewrite forallb_forall. split; intros H x Hx; [apply is_mod_in, H, Hx|apply is_mod_in, H, Hx]. }
  assert (HC : incl required potential ->
    Z.of_nat (length potential) - Z.of_nat (length required) =
    Z.of_nat (length (filter (fun x => negb (existsb (streq x) required)) potential))).
  { intros HI.
    assert (E : length (filter (fun x => existsb (streq x) required) potential) = length required).
    { apply Permutation_length. apply NoDup_Permutation; [now apply NoDup_filter|exact H1|].
      intros x. rewrite filter_In. change (existsb (streq x) required) with (is_mod required x).
      rewrite is_mod_in. split; [tauto|]. intros H. split; [now apply HI|exact H]. }
    assert (L : (length (filter (fun x => existsb (streq x) required) potential) +
                 length (filter (fun x => negb (existsb (streq x) required)) potential) = length potential)%nat).
    { clear. induction potential as [|x l IH]; [reflexivity|]. cbn. destruct (existsb (streq x) required); cbn; lia. }
    lia. }
  destruct (forallb _ required).
  - assert (HI : incl required potential) by now apply HB. split; [|intros _; now apply HC].
    rewrite HC by exact HI. split; [lia|]. intros N. contradiction.
  - assert (HI : ~ incl required potential) by (intros H; apply HB in H; discriminate).
    split; [tauto|]. intros H; contradiction.
Qed.
