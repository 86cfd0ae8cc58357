(** Parameter sweeps and shared/unique keys. *)
From Coq Require Import Permutation Sorted.
From Verif Require Import Model.Params Proofs.DictFacts.
Open Scope Z_scope.

Lemma filter_len {A} (f : A -> bool) l : (length (filter f l) <= length l)%nat.
Proof. induction l as [|x l IH]; cbn; [lia|]. destruct (f x); cbn; lia. Qed.

(** ** itertools.product *)
Section product.
  Context {V : Type}.
  Implicit Types lists : list (list V).

  Lemma product_in : forall lists x, In x (product lists) <-> Forall2 (fun v l => In v l) x lists.
  Proof.
    induction lists as [|l lists IH]; intros x; cbn.
    - split; [intros [<-|[]]; constructor|]. intros H. inversion H. now left.
    - rewrite in_flat_map. split.
      + intros (v & Hv & Hx). apply in_map_iff in Hx as (y & <- & Hy). constructor; [exact Hv|]. now apply IH.
      + intros H. inversion H as [|v l' y ls Hv Hy]; subst. exists v. split; [exact Hv|]. apply in_map_iff. exists y. split; [reflexivity|]. now apply IH.
  Qed.

  Lemma product_length : forall lists,
    length (product lists) = fold_right (fun l n => length l * n)%nat 1%nat lists.
  Proof.
    induction lists as [|l lists IH]; cbn; [reflexivity|]. rewrite <- IH.
    induction l as [|x l IHl]; cbn; [reflexivity|]. rewrite app_length, map_length, IHl. reflexivity.
  Qed.

  Lemma product_nodup : forall lists, Forall (@NoDup V) lists -> NoDup (product lists).
  Proof.
    induction lists as [|l lists IH]; intros H; cbn; [repeat constructor; intros []|].
    inversion H as [|? ? Hl Hls]; subst. specialize (IH Hls).
    induction l as [|x l IHl]; cbn; [constructor|]. inversion Hl as [|? ? Nx Hl']; subst.
    assert (HD : forall y, In y (map (cons x) (product lists)) ->
                 ~ In y (flat_map (fun x => map (cons x) (product lists)) l)).
    { intros y Hy Hy'. apply in_map_iff in Hy as (z & <- & _).
      apply in_flat_map in Hy' as (w & Hw & Hz). apply in_map_iff in Hz as (u & E & _).
      injection E as -> _. contradiction. }
    assert (HN : NoDup (map (cons x) (product lists))).
    { apply FinFun.Injective_map_NoDup; [intros a b E; now injection E|exact IH]. }
    assert (HN2 : NoDup (flat_map (fun x => map (cons x) (product lists)) l)).
    { apply IHl; [constructor; assumption|exact Hl']. }
    revert HN HD. generalize (map (cons x) (product lists)). intros m HN HD.
    induction m as [|y m IHm]; cbn; [exact HN2|]. inversion HN; subst.
    constructor; [|apply IHm; [assumption|intros z Hz; apply HD; now right]].
    rewrite in_app_iff. intros [|]; [contradiction|]. apply (HD y); [now left|assumption].
  Qed.
End product.

Lemma filter_keys_nodup {K V} (f : K * V -> bool) (d : list (K * V)) :
  NoDup (map fst d) -> NoDup (map fst (filter f d)).
Proof.
  induction d as [|[k v] d IH]; cbn; intros H; [constructor|].
  inversion H as [|? ? N H']; subst. destruct (f (k, v)); [|apply IH, H']. cbn.
  constructor; [|apply IH, H']. intros Hin. apply N. apply in_map_iff in Hin as ([k' v'] & E & Hin).
  cbn in E. subst. apply filter_In in Hin as [Hin _]. apply (in_map fst) in Hin. exact Hin.
Qed.

Section params.
  Context {K V : Type} (keq : K -> K -> bool).
  Hypothesis keq_spec : forall x y, keq x y = true <-> x = y.

  Lemma combine_fst {B} : forall (ks : list K) (x : list B), length x = length ks -> map fst (combine ks x) = ks.
  Proof.
    induction ks as [|k ks IH]; intros [|b x]; cbn; try discriminate; [reflexivity|].
    intros [= E]. f_equal. apply IH, E.
  Qed.
  Lemma combine_snd {B} : forall (ks : list K) (x : list B), length x = length ks -> map snd (combine ks x) = x.
  Proof.
    induction ks as [|k ks IH]; intros [|b x]; cbn; try discriminate; [reflexivity|].
    intros [= E]. f_equal. apply IH, E.
  Qed.

  Lemma Forall2_len {A B} (P : A -> B -> Prop) x y : Forall2 P x y -> length x = length y.
  Proof. induction 1; cbn; congruence. Qed.

  Lemma sets_unfold (params : list (K * list V)) : NoDup (map fst params) ->
    unique_dict_sets keq params = map (combine (map fst params)) (product (map snd params)).
  Proof.
    intros H. unfold unique_dict_sets. apply map_ext_in. intros x Hx.
    apply product_in, Forall2_len in Hx. rewrite map_length in Hx.
    apply (of_nodup keq keq_spec). rewrite combine_fst; [exact H|now rewrite map_length].
  Qed.

  Lemma sets_in (params : list (K * list V)) : NoDup (map fst params) -> forall d,
    In d (unique_dict_sets keq params) <->
    map fst d = map fst params /\
    forall k v, In (k, v) d -> exists vs, In (k, vs) params /\ In v vs.
  Proof.
    intros H d. rewrite (sets_unfold _ H), in_map_iff. split.
    - intros (x & <- & Hx). apply product_in in Hx.
      assert (HL := Forall2_len _ _ _ Hx). rewrite map_length in HL. split.
      + apply combine_fst. now rewrite map_length.
      + clear H HL. remember (map snd params) as ls eqn:E. revert params E.
        induction Hx as [|v l x ls Hv _ IH]; intros [|[k vs] params] E k0 v0; try discriminate; [intros []|].
        cbn in E. injection E as -> ->. cbn. intros [E|Hin].
        * injection E as -> ->. exists vs. split; [now left|exact Hv].
        * destruct (IH params eq_refl k0 v0 Hin) as (vs' & H1 & H2). exists vs'. split; [now right|exact H2].
    - intros [E Hv]. exists (map snd d). split.
      + rewrite <- E. clear. induction d as [|[k v] d IH]; cbn; [reflexivity|]. now rewrite IH.
      + apply product_in. revert params H E Hv. induction d as [|[k v] d IH]; intros [|[k' vs] params] H E Hv;
          cbn in *; try discriminate; [constructor|]. injection E as -> E. inversion H as [|? ? N H']; subst.
        constructor.
        * destruct (Hv k' v (or_introl eq_refl)) as (vs' & [E'|Hin] & Hv').
          -- injection E' as ->. exact Hv'.
          -- exfalso. apply N. apply (in_map fst) in Hin. exact Hin.
        * apply IH; [exact H'|exact E|]. intros k0 v0 Hin.
          destruct (Hv k0 v0 (or_intror Hin)) as (vs' & [E'|Hin'] & Hv'); [|exists vs'; split; assumption].
          injection E' as -> ->. exfalso. apply N. rewrite <- E. apply (in_map fst) in Hin. exact Hin.
  Qed.

  Lemma sets_length (params : list (K * list V)) : NoDup (map fst params) ->
    length (unique_dict_sets keq params) =
    fold_right (fun p n => length (snd p) * n)%nat 1%nat params.
  Proof.
    intros _. unfold unique_dict_sets. rewrite map_length, product_length.
    induction params as [|[k vs] params IH]; cbn; [reflexivity|]. now rewrite IH.
  Qed.

  Lemma sets_nodup (params : list (K * list V)) : NoDup (map fst params) ->
    Forall (fun p => NoDup (snd p)) params -> NoDup (unique_dict_sets keq params).
  Proof.
    intros H HF. rewrite (sets_unfold _ H).
    assert (HP : NoDup (product (map snd params))).
    { apply product_nodup. apply Forall_map. exact HF. }
    assert (HL : forall x, In x (product (map snd params)) -> length x = length (map fst params)).
    { intros x Hx. apply product_in, Forall2_len in Hx. now rewrite !map_length in *. }
    revert HP HL. generalize (product (map snd params)). generalize (map fst params). clear.
    intros ks l. induction l as [|x l IH]; intros HP HL; cbn; [constructor|].
    inversion HP as [|? ? N HP']; subst. constructor.
    - intros Hin. apply in_map_iff in Hin as (y & E & Hy). apply N.
      assert (x = y); [|now subst]. apply (f_equal (map snd)) in E.
      rewrite !combine_snd in E; [congruence|apply HL; now left|apply HL; now right].
    - apply IH; [exact HP'|]. intros y Hy. apply HL. now right.
  Qed.

  Lemma combinations (params : list (K * list V)) : params <> [] ->
    get_all_combinations keq (Some params) = unique_dict_sets keq params.
  Proof. destruct params; [contradiction|reflexivity]. Qed.

  (** ** keys *)
  Variable kle : K -> K -> bool.
  Hypothesis kle_total : forall x y, kle x y = true \/ kle y x = true.
  Hypothesis kle_trans : forall x y z, kle x y = true -> kle y z = true -> kle x z = true.
  Variable veq : V -> V -> bool.
  Hypothesis veq_spec : forall x y, veq x y = true <-> x = y.

  Definition kles (x y : K) : Prop := kle x y = true.

  Lemma insert_perm k l : Permutation (k :: l) (insert kle k l).
  Proof.
    induction l as [|x l IH]; cbn; [reflexivity|]. destruct (kle k x); [reflexivity|].
    rewrite perm_swap. now constructor.
  Qed.
  Lemma sort_perm l : Permutation l (sort kle l).
  Proof.
    unfold sort. induction l as [|x l IH]; cbn; [reflexivity|]. rewrite <- insert_perm. now constructor.
  Qed.
  Lemma insert_sorted k l : StronglySorted kles l -> StronglySorted kles (insert kle k l).
  Proof.
    induction 1 as [|x l HS IH HF]; cbn; [repeat constructor|].
    destruct (kle k x) eqn:E.
    - constructor; [constructor; assumption|]. constructor; [exact E|].
      eapply Forall_impl; [|exact HF]. intros y Hy. eapply kle_trans; [exact E|exact Hy].
    - constructor; [exact IH|]. eapply Permutation_Forall; [apply insert_perm|].
      constructor; [|exact HF]. destruct (kle_total k x) as [E2|E2]; [congruence|exact E2].
  Qed.
  Lemma sort_sorted l : StronglySorted kles (sort kle l).
  Proof. unfold sort. induction l; cbn; [constructor|]. now apply insert_sorted. Qed.
  Lemma sort_in l x : In x (sort kle l) <-> In x l.
  Proof. split; apply Permutation_in; [symmetry|]; apply sort_perm. Qed.
  Lemma sort_nodup l : NoDup l -> NoDup (sort kle l).
  Proof. apply Permutation_NoDup, sort_perm. Qed.

  Lemma mem_in k l : mem keq k l = true <-> In k l.
  Proof.
    unfold mem. rewrite existsb_exists. split.
    - intros (x & Hx & E). apply keq_spec in E as ->. exact Hx.
    - intros H. exists k. split; [exact H|]. now apply keq_spec.
  Qed.

  Definition a_dict (p : list (K * V)) : Prop := NoDup (map fst p).

  Lemma shared_keys_spec (pl : list (list (K * V))) : pl <> [] -> Forall a_dict pl ->
    exists ks, get_shared_keys keq kle pl = Some ks /\ StronglySorted kles ks /\ NoDup ks /\
      forall k, In k ks <-> forall p, In p pl -> In k (map fst p).
  Proof.
    intros Hne Hd. destruct pl as [|p0 rest]; [contradiction|].
    unfold get_shared_keys. eexists. split; [reflexivity|].
    assert (HG : forall rest keys, let r := fold_left (fun keys p => filter (fun k => mem keq k (map fst p)) keys) rest keys in
       (NoDup keys -> NoDup r) /\
       forall k, In k r <-> In k keys /\ forall p : list (K * V), In p rest -> In k (map fst p)).
    { clear -keq_spec. intros rest0. induction rest0 as [|p rest0 IH]; intros keys; cbn [fold_left].
      - split; [auto|]. intros k. split; [intros H; split; [exact H|intros ? []]|tauto].
      - destruct (IH (filter (fun k => mem keq k (map fst p)) keys)) as [H1 H2]. split.
        + intros H. apply H1, NoDup_filter, H.
        + intros k. rewrite H2, filter_In, mem_in. split.
          * intros [[H3 H4] H5]. split; [exact H3|]. intros q [<-|Hq]; [exact H4|apply H5, Hq].
          * intros [H3 H4]. split; [split; [exact H3|apply H4; now left]|].
            intros q Hq. apply H4. now right. }
    destruct (HG rest (map fst p0)) as [H1 H2]. split; [apply sort_sorted|]. split.
    - apply sort_nodup, H1. inversion Hd; assumption.
    - intros k. rewrite sort_in, H2. split.
      + intros [H3 H4] q [<-|Hq]; [exact H3|apply H4, Hq].
      + intros H. split; [apply H; now left|]. intros q Hq. apply H. now right.
  Qed.

  (** how often a key occurs *)
  Definition occurrences (pl : list (list (K * V))) (k : K) : Z :=
    Z.of_nat (length (filter (fun p => mem keq k (map fst p)) pl)).
  Definition cnt (counts : list (K * Z)) (k : K) : Z :=
    match gd_get keq counts k with Some c => c | None => 0 end.

  Lemma count_inner : forall ks counts, NoDup ks -> NoDup (map fst counts) ->
    let r := fold_left (fun counts k =>
        gd_set keq counts k (1 + match gd_get keq counts k with Some c => c | None => 0 end)) ks counts in
    NoDup (map fst r) /\
    (forall k, In k (map fst r) <-> In k ks \/ In k (map fst counts)) /\
    forall k, cnt r k = cnt counts k + (if mem keq k ks then 1 else 0).
  Proof.
    induction ks as [|k0 ks IH]; intros counts HN HC; cbn [fold_left].
    - split; [exact HC|]. split; [intros k; cbn; tauto|]. intros k. cbn. lia.
    - inversion HN as [|? ? N HN']; subst.
      destruct (IH (gd_set keq counts k0 (1 + match gd_get keq counts k0 with Some c => c | None => 0 end)) HN')
        as (H1 & H2 & H3); [apply set_nodup; assumption|].
      split; [exact H1|]. split.
      + intros k. rewrite H2, (set_keys keq keq_spec). cbn [In]. intuition congruence.
      + intros k. rewrite H3. unfold cnt at 1. rewrite (get_set keq keq_spec).
        unfold mem. cbn [existsb]. destruct (keq k0 k) eqn:E.
        * apply keq_spec in E as ->. rewrite (proj2 (keq_spec k k) eq_refl). cbn [orb].
          fold (mem keq k ks). destruct (mem keq k ks) eqn:Em; [apply mem_in in Em; contradiction|].
          fold (cnt counts k). lia.
        * destruct (keq k k0) eqn:E'; [apply keq_spec in E' as ->; rewrite (proj2 (keq_spec k0 k0) eq_refl) in E; discriminate|].
          cbn [orb]. fold (mem keq k ks). fold (cnt counts k). lia.
  Qed.

  Lemma count_keys_spec : forall pl, Forall a_dict pl ->
    NoDup (map fst (count_keys keq pl)) /\
    (forall k, In k (map fst (count_keys keq pl)) <-> exists p, In p pl /\ In k (map fst p)) /\
    forall k, cnt (count_keys keq pl) k = occurrences pl k.
  Proof.
    intros pl Hd. unfold count_keys.
    assert (HG : forall pl counts, Forall a_dict pl -> NoDup (map fst counts) ->
      let r := fold_left (fun counts p => fold_left (fun counts k =>
         gd_set keq counts k (1 + match gd_get keq counts k with Some c => c | None => 0 end)) (map fst p) counts) pl counts in
      NoDup (map fst r) /\
      (forall k, In k (map fst r) <-> In k (map fst counts) \/ exists p, In p pl /\ In k (map fst p)) /\
      forall k, cnt r k = cnt counts k + occurrences pl k).
    { clear pl Hd. induction pl as [|p pl IH]; intros counts Hd HC; cbn [fold_left].
      - split; [exact HC|]. split; [intros k; split; [now left|intros [H|(p & [] & _)]; exact H]|].
        intros k. unfold occurrences. cbn. lia.
      - inversion Hd as [|? ? Hp Hd']; subst.
        destruct (count_inner (map fst p) counts Hp HC) as (H1 & H2 & H3).
        destruct (IH _ Hd' H1) as (H4 & H5 & H6). split; [exact H4|]. split.
        + intros k. rewrite H5, H2. split.
          * intros [[H|H]|(q & Hq & H)]; [right; exists p; split; [now left|exact H]|now left|].
            right. exists q. split; [now right|exact H].
          * intros [H|(q & [->|Hq] & H)]; [left; now right|left; now left|right; exists q; split; assumption].
        + intros k. rewrite H6, H3. unfold occurrences. cbn [filter].
          destruct (mem keq k (map fst p)); cbn [length]; lia. }
    destruct (HG pl [] Hd (NoDup_nil _)) as (H1 & H2 & H3). split; [exact H1|]. split.
    - intros k. rewrite H2. split; [intros [[]|H]; exact H|now right].
    - intros k. rewrite H3. reflexivity.
  Qed.

  Lemma occurrences_all pl k : occurrences pl k < Z.of_nat (length pl) <->
    exists p, In p pl /\ ~ In k (map fst p).
  Proof.
    unfold occurrences. induction pl as [|p pl IH]; cbn [filter length].
    - split; [lia|intros (p & [] & _)].
    - destruct (mem keq k (map fst p)) eqn:E; cbn [length].
      + apply mem_in in E. assert (HR : Z.of_nat (length (filter (fun p0 => mem keq k (map fst p0)) pl)) < Z.of_nat (length pl) <->
          Z.of_nat (S (length (filter (fun p0 => mem keq k (map fst p0)) pl))) < Z.of_nat (S (length pl))) by lia.
        rewrite <- HR, IH. split.
        * intros (q & Hq & N). exists q. split; [now right|exact N].
        * intros (q & [->|Hq] & N); [contradiction|]. exists q. split; assumption.
      + split; [|intros _; pose proof (filter_len (fun p0 => mem keq k (map fst p0)) pl); lia].
        intros _. exists p. split; [now left|]. intros H. apply mem_in in H. congruence.
  Qed.

  Lemma unique_keys_spec (pl : list (list (K * V))) : pl <> [] -> Forall a_dict pl ->
    exists us, get_unique_keys keq kle pl = Some us /\ StronglySorted kles us /\ NoDup us /\
      forall k, In k us <-> (exists p, In p pl /\ In k (map fst p)) /\ exists p, In p pl /\ ~ In k (map fst p).
  Proof.
    intros Hne Hd. destruct (count_keys_spec pl Hd) as (H1 & H2 & H3).
    unfold get_unique_keys. destruct pl as [|p0 rest]; [contradiction|].
    eexists. split; [reflexivity|]. split; [apply sort_sorted|].
    set (pl := p0 :: rest) in *. set (counts := count_keys keq pl) in *. split.
    - apply sort_nodup, filter_keys_nodup, H1.
    - intros k. rewrite sort_in, in_map_iff. split.
      + intros ([k' c] & E & Hin). cbn in E. subst k'. apply filter_In in Hin as [Hin Hc].
        split; [apply H2; apply (in_map fst) in Hin; exact Hin|].
        apply occurrences_all. rewrite <- H3. unfold cnt.
        rewrite (in_get keq keq_spec counts k c H1 Hin). cbn in Hc. now apply Z.ltb_lt.
      + intros [Hk Hm]. apply H2 in Hk. apply (get_keys keq keq_spec) in Hk as [c Hc].
        exists (k, c). split; [reflexivity|]. apply filter_In. split; [apply (get_in keq keq_spec), Hc|].
        cbn. apply Z.ltb_lt. apply occurrences_all in Hm. rewrite <- H3 in Hm. unfold cnt in Hm.
        now rewrite Hc in Hm.
  Qed.

  (** ** get_shared_values *)
  Lemma drop_spec : forall p shared, NoDup (map fst shared) ->
    NoDup (map fst (drop_differing keq veq shared p)) /\
    forall k v, gd_get keq (drop_differing keq veq shared p) k = Some v <->
      gd_get keq shared k = Some v /\ forall v', In (k, v') p -> v' = v.
  Proof.
    unfold drop_differing. induction p as [|[k0 v0] p IH]; intros shared HN; cbn [fold_left fst snd].
    - split; [exact HN|]. intros k v. split; [intros H; split; [exact H|intros ? []]|tauto].
    - set (s1 := match gd_get keq shared k0 with
                 | Some v => if veq v v0 then shared else gd_pop keq shared k0 | None => shared end).
      assert (HN1 : NoDup (map fst s1)).
      { unfold s1. destruct (gd_get keq shared k0) as [v|]; [|exact HN]. destruct (veq v v0); [exact HN|].
        apply pop_nodup; assumption. }
      destruct (IH s1 HN1) as [H1 H2]. split; [exact H1|]. intros k v. rewrite H2.
      assert (HS : gd_get keq s1 k = Some v <-> gd_get keq shared k = Some v /\ (k = k0 -> v0 = v)).
      { unfold s1. destruct (gd_get keq shared k0) as [w|] eqn:Ew.
        - destruct (veq w v0) eqn:Ev.
          + apply veq_spec in Ev as ->. split; [|tauto]. intros H. split; [exact H|]. intros ->. congruence.
          + rewrite (get_pop keq keq_spec) by exact HN. destruct (keq k0 k) eqn:E.
            * apply keq_spec in E as ->. split; [discriminate|]. intros [H Hv]. specialize (Hv eq_refl). subst.
              assert (w = v) by congruence. subst. rewrite (proj2 (veq_spec v v) eq_refl) in Ev. discriminate.
            * split; [|tauto]. intros H. split; [exact H|]. intros ->.
              rewrite (proj2 (keq_spec k0 k0) eq_refl) in E. discriminate.
        - split; [|tauto]. intros H. split; [exact H|]. intros ->. congruence. }
      rewrite HS. split.
      + intros [[H3 H4] H5]. split; [exact H3|]. intros v' [E|Hin]; [|apply H5, Hin].
        injection E as -> ->. now apply H4.
      + intros [H3 H4]. split; [split; [exact H3|]|].
        * intros ->. apply H4. now left.
        * intros v' Hin. apply H4. now right.
  Qed.

  Lemma shared_values_spec (pl : list (list (K * V))) : pl <> [] -> Forall a_dict pl ->
    exists d, get_shared_values keq veq pl = Some d /\ a_dict d /\
      forall k v, gd_get keq d k = Some v <-> forall p, In p pl -> gd_get keq p k = Some v.
  Proof.
    intros Hne Hd. destruct pl as [|p0 rest]; [contradiction|]. unfold get_shared_values.
    eexists. split; [reflexivity|]. set (pl := p0 :: rest) in *.
    set (sh := filter (fun kv => forallb (fun p => mem keq (fst kv) (map fst p)) pl) p0).
    assert (Hp0 : a_dict p0) by (inversion Hd; assumption).
    assert (HN : NoDup (map fst sh)).
    { unfold sh. apply filter_keys_nodup, Hp0. }
    assert (HG : forall l s, NoDup (map fst s) ->
      NoDup (map fst (fold_left (drop_differing keq veq) l s)) /\
      forall k v, gd_get keq (fold_left (drop_differing keq veq) l s) k = Some v <->
        gd_get keq s k = Some v /\ forall p, In p l -> forall v', In (k, v') p -> v' = v).
    { clear -keq_spec veq_spec. induction l as [|p l IH]; intros s HN; cbn [fold_left].
      - split; [exact HN|]. intros k v. split; [intros H; split; [exact H|intros ? []]|tauto].
      - destruct (drop_spec p s HN) as [H1 H2]. destruct (IH _ H1) as [H3 H4]. split; [exact H3|].
        intros k v. rewrite H4, H2. split.
        + intros [[H5 H6] H7]. split; [exact H5|]. intros q [<-|Hq]; [exact H6|apply H7, Hq].
        + intros [H5 H6]. split; [split; [exact H5|apply H6; now left]|]. intros q Hq. apply H6. now right. }
    destruct (HG pl sh HN) as [H1 H2]. split; [exact H1|]. intros k v. rewrite H2.
    assert (HS : gd_get keq sh k = Some v <-> gd_get keq p0 k = Some v /\ forall p, In p pl -> In k (map fst p)).
    { split.
      - intros H. apply (get_in keq keq_spec) in H. unfold sh in H. apply filter_In in H as [Hin HF].
        split; [apply (in_get keq keq_spec); assumption|]. intros p Hp.
        rewrite forallb_forall in HF. apply mem_in. exact (HF p Hp).
      - intros [H HA]. apply (in_get keq keq_spec); [exact HN|]. unfold sh. apply filter_In.
        split; [apply (get_in keq keq_spec), H|]. apply forallb_forall. intros p Hp. apply mem_in, HA, Hp. }
    rewrite HS. rewrite Forall_forall in Hd. split.
    - intros [[H3 H4] H5] p Hp. specialize (H4 p Hp). apply (get_keys keq keq_spec) in H4 as [v' Hv'].
      rewrite Hv'. f_equal. apply (H5 p Hp). apply (get_in keq keq_spec), Hv'.
    - intros H. split; [split|].
      + apply H. now left.
      + intros p Hp. apply (get_keys keq keq_spec). exists v. apply H, Hp.
      + intros p Hp v' Hin. apply (in_get keq keq_spec) in Hin; [|apply Hd, Hp].
        rewrite (H p Hp) in Hin. congruence.
  Qed.
End params.

Lemma no_parameters {K V} (keq : K -> K -> bool) :
  unique_dict_sets (V := V) keq [] = [[]] /\
  get_all_combinations (V := V) keq (Some []) = [] /\ get_all_combinations (V := V) keq None = [].
Proof. repeat split. Qed.
