(** Facts about file names made of parameters. *)
From Coq Require Import Permutation Sorting.Sorted.
From Verif Require Import Proofs.DictFacts Proofs.ParamsFacts Proofs.StrFacts Proofs.ProtocolFacts.
From Verif Require Import Model.FileNames Spec.FileNames.
Open Scope Z_scope.

Lemma allowed_safe c : allowed c = true <-> safe c.
Proof.
  unfold allowed, safe, is_digit, underscore, dash.
  rewrite !orb_true_iff, !andb_true_iff, !Z.leb_le, !Z.eqb_eq. lia.
Qed.

Lemma keep_safe s : Forall safe (keep_allowed s).
Proof.
  apply Forall_forall. intros c H. apply filter_In in H as [_ H]. now apply allowed_safe.
Qed.
Lemma keep_id s : Forall safe s -> keep_allowed s = s.
Proof.
  induction 1 as [|c s Hc _ IH]; cbn; [reflexivity|]. apply allowed_safe in Hc. rewrite Hc.
  unfold keep_allowed in IH. now rewrite IH.
Qed.
Lemma keep_in s c : In c (keep_allowed s) <-> In c s /\ safe c.
Proof. unfold keep_allowed. rewrite filter_In, allowed_safe. reflexivity. Qed.

Lemma clean_str s : exists t, clean_string (VStr s) = Ok t /\ Forall safe t /\
  (forall c, In c t <-> In c s /\ safe c) /\ clean_string (VStr t) = Ok t /\
  (Forall safe s <-> t = s).
Proof.
  exists (keep_allowed s). cbn. split; [reflexivity|]. pose proof (keep_safe s) as H.
  split; [exact H|]. split; [apply keep_in|]. split; [now rewrite keep_id|].
  split; [apply keep_id|]. intros E. now rewrite <- E.
Qed.

Lemma clean_app s1 s2 t1 t2 : clean_string (VStr s1) = Ok t1 -> clean_string (VStr s2) = Ok t2 ->
  clean_string (VStr (s1 ++ s2)) = Ok (t1 ++ t2).
Proof. cbn. unfold keep_allowed. intros E1 E2. injection E1 as <-. injection E2 as <-. now rewrite filter_app. Qed.

Definition clean_items (d : list (pystr * pval)) : result (list (pystr * pystr)) :=
  (fix go (d : list (pystr * pval)) : result (list (pystr * pystr)) :=
     match d with
     | [] => Ok []
     | (k, v) :: d' =>
         match k with
         | [] => Err TypeError
         | _ => do s <- clean_string v; do rest <- go d';
                Ok ((k, k ++ [dash] ++ s) :: rest)
         end
     end) d.
Definition clean_list (l : list pval) : result (list pystr) :=
  (fix go (l : list pval) : result (list pystr) :=
     match l with
     | [] => Ok []
     | v :: l' => do s <- clean_string v; do rest <- go l'; Ok (s :: rest)
     end) l.
Lemma clean_dict d : clean_string (VDict d) =
  do parts <- clean_items d; Ok (join [underscore] (map snd (sort_items parts))).
Proof. reflexivity. Qed.
Lemma clean_vlist l : clean_string (VList l) = do parts <- clean_list l; Ok (join [dash] parts).
Proof. reflexivity. Qed.
Lemma clean_items_cons k v d : clean_items ((k, v) :: d) =
  match k with
  | [] => Err TypeError
  | _ => do s <- clean_string v; do rest <- clean_items d; Ok ((k, k ++ [dash] ++ s) :: rest)
  end.
Proof. reflexivity. Qed.
Lemma clean_list_cons v l : clean_list (v :: l) =
  do s <- clean_string v; do rest <- clean_list l; Ok (s :: rest).
Proof. reflexivity. Qed.

Section pval_rec.
  Variable P : pval -> Prop.
  Hypotheses (Hn : P VNone) (Hb : forall b, P (VBool b)) (Hi : forall n, P (VInt n))
    (Hs : forall s, P (VStr s)) (Ho : forall s, P (VOther s))
    (Hl : forall l, Forall P l -> P (VList l))
    (Hd : forall d, Forall (fun p => P (snd p)) d -> P (VDict d)).
  Fixpoint pval_all (v : pval) : P v :=
    match v with
    | VNone => Hn | VBool b => Hb b | VInt n => Hi n | VStr s => Hs s | VOther s => Ho s
    | VList l => Hl l ((fix go l : Forall P l :=
                          match l with
                          | [] => Forall_nil _
                          | x :: l' => Forall_cons _ (pval_all x) (go l')
                          end) l)
    | VDict d => Hd d ((fix go d : Forall (fun p => P (snd p)) d :=
                          match d with
                          | [] => Forall_nil _
                          | p :: d' => Forall_cons (P := fun p => P (snd p)) p
                              (match p with (k, x) => pval_all x end) (go d')
                          end) d)
    end.
End pval_rec.

Lemma all_keys_list P l : all_keys P (VList l) <-> Forall (all_keys P) l.
Proof.
  induction l as [|x l IH]; [cbn; split; auto|]. split.
  - intros [H1 H2]. constructor; [exact H1|]. now apply IH.
  - intros H. inversion H; subst. split; [assumption|]. now apply IH.
Qed.
Lemma all_keys_dict P d : all_keys P (VDict d) <-> Forall (fun p => P (fst p) /\ all_keys P (snd p)) d.
Proof.
  induction d as [|[k x] d IH]; [cbn; split; auto|]. split.
  - intros (H1 & H2 & H3). constructor; [split; assumption|]. now apply IH.
  - intros H. inversion H as [|? ? [H1 H2]]; subst. split; [exact H1|]. split; [exact H2|]. now apply IH.
Qed.

Lemma join_forall (P : Z -> Prop) sep l : Forall P sep -> Forall (Forall P) l -> Forall P (join sep l).
Proof.
  intros Hs. induction 1 as [|w l Hw Hl IH]; [constructor|].
  destruct l as [|w' l]; [exact Hw|]. rewrite join_cons by discriminate.
  apply Forall_app. split; [exact Hw|]. apply Forall_app. split; [exact Hs|exact IH].
Qed.

Lemma sort_items_perm {A} (d : list (pystr * A)) : Permutation d (sort_items d).
Proof. apply sort_perm. Qed.

Lemma safe_dash : safe dash. Proof. unfold safe, dash. lia. Qed.
Lemma safe_underscore : safe underscore. Proof. unfold safe, underscore. lia. Qed.
Lemma safe_digit c : is_digit c = true -> safe c.
Proof. unfold is_digit, safe. rewrite andb_true_iff, !Z.leb_le. lia. Qed.
Lemma safe_int n : Forall safe (str_of_int n).
Proof.
  assert (HG : forall m, 0 <= m -> Forall safe (str_of_nat m)).
  { intros m Hm. destruct (str_of_nat_spec m Hm) as (_ & H & _). apply Forall_forall. intros c Hc.
    rewrite forallb_forall in H. apply safe_digit; auto. }
  unfold str_of_int. destruct (n <? 0) eqn:E.
  - apply Z.ltb_lt in E. constructor; [apply safe_dash|]. apply HG. lia.
  - apply HG. apply Z.ltb_ge in E. exact E.
Qed.

(** values whose keys are not empty and made of safe characters *)
Lemma clean_values v : all_keys (fun k => k <> [] /\ Forall safe k) v ->
  exists t, clean_string v = Ok t /\ Forall safe t.
Proof.
  induction v as [|b|n|s|s|l IH|d IH] using pval_all; intros HK;
    try (eexists; split; [reflexivity|apply keep_safe]).
  - destruct b; eexists; (split; [reflexivity|apply keep_safe]).
  - rewrite clean_vlist. apply all_keys_list in HK.
    assert (H : exists parts, clean_list l = Ok parts /\ Forall (Forall safe) parts).
    { induction IH as [|x l Hx _ IHl]; [exists []; split; [reflexivity|constructor]|].
      inversion HK as [|? ? K1 K2]; subst. destruct (Hx K1) as (t & E & Ht).
      destruct (IHl K2) as (parts & E2 & H2). rewrite clean_list_cons, E. cbn [bind]. rewrite E2.
      exists (t :: parts). split; [reflexivity|]. constructor; assumption. }
    destruct H as (parts & E & HP). rewrite E. cbn [bind]. eexists. split; [reflexivity|].
    apply join_forall; [repeat constructor; apply safe_dash|exact HP].
  - rewrite clean_dict. apply all_keys_dict in HK.
    assert (H : exists parts, clean_items d = Ok parts /\ Forall (fun p => Forall safe (snd p)) parts).
    { induction IH as [|[k x] d Hx _ IHd]; [exists []; split; [reflexivity|constructor]|].
      inversion HK as [|? ? [[K0 K1] K3] K2]; subst. cbn [fst snd] in *. destruct (Hx K3) as (t & E & Ht).
      destruct (IHd K2) as (parts & E2 & H2). rewrite clean_items_cons.
      destruct k as [|c k]; [contradiction|]. rewrite E. cbn [bind]. rewrite E2. cbn [bind].
      eexists. split; [reflexivity|]. constructor; [|assumption]. cbn [snd].
      apply Forall_app. split; [exact K1|]. apply Forall_app. split; [repeat constructor; apply safe_dash|exact Ht]. }
    destruct H as (parts & E & HP). rewrite E. cbn [bind]. eexists. split; [reflexivity|].
    apply join_forall; [repeat constructor; apply safe_underscore|].
    apply Forall_forall. intros w Hw. apply in_map_iff in Hw as (p & <- & Hp).
    rewrite Forall_forall in HP. apply HP.
    eapply Permutation_in; [apply Permutation_sym, sort_items_perm|exact Hp].
Qed.

(** the only error is an empty name *)
Lemma clean_ok_iff v : (exists t, clean_string v = Ok t) <-> all_keys (fun k => k <> []) v.
Proof.
  induction v as [|b|n|s|s|l IH|d IH] using pval_all;
    try (split; [intros _; exact I|intros _; eexists; reflexivity]).
  - split; [intros _; exact I|]. intros _. destruct b; eexists; reflexivity.
  - rewrite clean_vlist, all_keys_list.
    transitivity (exists parts, clean_list l = Ok parts).
    { split; [intros (t & E)|intros (p & E); rewrite E; eexists; reflexivity].
      destruct (clean_list l); [eexists; reflexivity|discriminate]. }
    induction IH as [|x l Hx _ IHl]; [split; [constructor|intros _; eexists; reflexivity]|].
    rewrite clean_list_cons. split.
    + intros (p & E). destruct (clean_string x); [|discriminate]. cbn [bind] in E.
      destruct (clean_list l); [|discriminate]. constructor; [apply Hx; eauto|apply IHl; eauto].
    + intros H. inversion H as [|? ? K1 K2]; subst. apply Hx in K1 as (t & ->). apply IHl in K2 as (p & ->).
      eexists; reflexivity.
  - rewrite clean_dict, all_keys_dict.
    transitivity (exists parts, clean_items d = Ok parts).
    { split; [intros (t & E)|intros (p & E); rewrite E; eexists; reflexivity].
      destruct (clean_items d); [eexists; reflexivity|discriminate]. }
    induction IH as [|[k x] d Hx _ IHd]; [split; [constructor|intros _; eexists; reflexivity]|].
    rewrite clean_items_cons. cbn [snd] in Hx. split.
    + intros (p & E). destruct k as [|c k]; [discriminate|].
      destruct (clean_string x); [|discriminate]. cbn [bind] in E.
      destruct (clean_items d); [|discriminate]. constructor; [|apply IHd; eauto].
      split; [discriminate|apply Hx; eauto].
    + intros H. inversion H as [|? ? [K0 K1] K2]; subst. cbn [fst snd] in *.
      apply Hx in K1 as (t & ->). apply IHd in K2 as (p & ->).
      destruct k; [contradiction|]. eexists; reflexivity.
Qed.
Lemma clean_error v e : clean_string v = Err e -> e = TypeError.
Proof.
  revert e. induction v as [|b|n|s|s|l IH|d IH] using pval_all; intros e; try discriminate.
  - destruct b; discriminate.
  - rewrite clean_vlist. destruct (clean_list l) eqn:E; [discriminate|]. cbn [bind]. intros E2.
    injection E2 as <-. revert e0 E. induction IH as [|x l Hx _ IHl]; [discriminate|].
    intros e0. rewrite clean_list_cons. destruct (clean_string x); cbn [bind].
    + destruct (clean_list l); cbn [bind]; [discriminate|]. intros E; injection E as <-. auto.
    + intros E; injection E as <-. auto.
  - rewrite clean_dict. destruct (clean_items d) eqn:E; [discriminate|]. cbn [bind]. intros E2.
    injection E2 as <-. revert e0 E. induction IH as [|[k x] d Hx _ IHl]; [discriminate|]. cbn [snd] in Hx.
    intros e0. rewrite clean_items_cons. destruct k; [now intros E; injection E as <-|].
    destruct (clean_string x); cbn [bind].
    + destruct (clean_items d); cbn [bind]; [discriminate|]. intros E; injection E as <-. auto.
    + intros E; injection E as <-. auto.
Qed.

(** ** Sorting *)
Definition fst_le {A} (p q : pystr * A) := strle (fst p) (fst q).
Lemma sort_items_sorted {A} (d : list (pystr * A)) :
  StronglySorted (fun p q => fst_le p q = true) (sort_items d).
Proof.
  apply (sort_sorted (fun p q => strle (fst p) (fst q))).
  - intros p q. apply strle_total.
  - intros p q r. apply strle_trans.
Qed.
Lemma sorted_unique {A} : forall l m : list (pystr * A), NoDup (map fst l) -> Permutation l m ->
  StronglySorted (fun p q => fst_le p q = true) l -> StronglySorted (fun p q => fst_le p q = true) m ->
  l = m.
Proof.
  induction l as [|a l IH]; intros m HN HP Hl Hm.
  - apply Permutation_nil in HP. now subst.
  - destruct m as [|b m]; [now apply Permutation_sym, Permutation_nil in HP|].
    assert (E : a = b).
    { inversion Hl as [|? ? Sl Fl]; inversion Hm as [|? ? Sm Fm]; subst.
      assert (Ha : In a (b :: m)) by (eapply Permutation_in; [exact HP|now left]).
      assert (Hb : In b (a :: l)) by (eapply Permutation_in; [apply Permutation_sym; exact HP|now left]).
      destruct Ha as [E|Ha]; [now symmetry|]. destruct Hb as [E|Hb]; [exact E|].
      rewrite Forall_forall in Fl, Fm. specialize (Fl _ Hb). specialize (Fm _ Ha).
      pose proof (strle_antisym _ _ Fl Fm) as E. exfalso. inversion HN as [|? ? N1 N2]; subst.
      apply N1. rewrite E. now apply in_map. }
    subst b. f_equal. apply IH.
    + now inversion HN.
    + now apply Permutation_cons_inv in HP.
    + now inversion Hl.
    + now inversion Hm.
Qed.
Lemma sort_items_map {A B} (f : pystr -> A -> B) (d : list (pystr * A)) :
  sort_items (map (fun p => (fst p, f (fst p) (snd p))) d) =
  map (fun p => (fst p, f (fst p) (snd p))) (sort_items d).
Proof.
  unfold sort_items, sort. induction d as [|p d IH]; cbn; [reflexivity|]. rewrite IH.
  generalize (fold_right (insert (fun p q => strle (fst p) (fst q))) [] d). clear. intros l.
  induction l as [|q l IH]; cbn; [reflexivity|]. destruct (strle (fst p) (fst q)); cbn; [reflexivity|].
  now rewrite IH.
Qed.
Lemma sort_items_nodup {A} (d : list (pystr * A)) : NoDup (map fst d) -> NoDup (map fst (sort_items d)).
Proof. intros H. eapply Permutation_NoDup; [|exact H]. apply Permutation_map, sort_items_perm. Qed.

(** the clean text of a value; used where there is one *)
Definition text (v : pval) : pystr := match clean_string v with Ok t => t | Err _ => [] end.
Definition entry (k : pystr) (v : pval) : pystr := k ++ [dash] ++ text v.
Lemma clean_items_text d : (exists parts, clean_items d = Ok parts) ->
  clean_items d = Ok (map (fun p => (fst p, entry (fst p) (snd p))) d).
Proof.
  induction d as [|[k v] d IH]; [reflexivity|]. rewrite clean_items_cons. intros (parts & E).
  destruct k as [|c k]; [discriminate|]. unfold entry, text in *. cbn [fst snd map].
  destruct (clean_string v); [|discriminate]. cbn [bind] in *.
  destruct (clean_items d) as [q|]; [|discriminate]. cbn [bind] in *.
  injection (IH (ex_intro _ q eq_refl)) as ->. reflexivity.
Qed.
Lemma clean_dict_text d t : clean_string (VDict d) = Ok t ->
  t = join [underscore] (map (fun p => entry (fst p) (snd p)) (sort_items d)).
Proof.
  rewrite clean_dict. destruct (clean_items d) as [q|] eqn:E; [|discriminate]. cbn [bind].
  rewrite clean_items_text in E by (rewrite E; eauto). injection E as <-.
  intros E; injection E as <-. rewrite (sort_items_map entry), map_map. reflexivity.
Qed.

Lemma clean_order d d' : NoDup (map fst d) -> Permutation d d' ->
  clean_string (VDict d) = clean_string (VDict d').
Proof.
  intros HN HP.
  assert (E : sort_items d = sort_items d').
  { apply sorted_unique; [now apply sort_items_nodup| |apply sort_items_sorted|apply sort_items_sorted].
    transitivity d; [apply Permutation_sym, sort_items_perm|]. transitivity d'; [exact HP|apply sort_items_perm]. }
  assert (HK : all_keys (fun k => k <> []) (VDict d) <-> all_keys (fun k => k <> []) (VDict d')).
  { rewrite !all_keys_dict. rewrite !Forall_forall. split; intros H x Hx; apply H;
    (eapply Permutation_in; [|exact Hx]); [apply Permutation_sym|]; exact HP. }
  rewrite <- !clean_ok_iff in HK.
  destruct (clean_string (VDict d)) as [t|e] eqn:E1.
  - destruct (proj1 HK (ex_intro _ t eq_refl)) as (t' & E2). rewrite E2.
    apply clean_dict_text in E1, E2. subst. now rewrite E.
  - destruct (clean_string (VDict d')) as [t'|e'] eqn:E2.
    + destruct (proj2 HK (ex_intro _ t' eq_refl)) as (t & ?). discriminate.
    + apply clean_error in E1, E2. now subst.
Qed.

(** ** Splitting *)
Section entries.
  Context {V : Type} (value1 : pystr -> result V) (values : list pystr -> result V).
  Definition value_of (vs : list pystr) : result V :=
    match vs with [v] => value1 v | _ => values vs end.

  Lemma split_loop_glue : forall ws g w t rest params,
    ~ In dash (match g with Some q => q | None => [] end) -> Forall (fun w => ~ In dash w) ws -> ~ In dash w ->
    split_loop value1 values g (ws ++ (w ++ dash :: t) :: rest) params =
    do val <- value_of (split dash t);
    split_loop value1 values None rest
      (gd_set streq params (join [underscore] (match g with Some q => [q] | None => [] end ++ ws ++ [w])) val).
  Proof.
    induction ws as [|w0 ws IH]; intros g w t rest params Hg Hws Hw.
    - cbn [app split_loop]. cbv zeta.
      match goal with |- context[split dash ?x] =>
        replace x with (join [underscore] (match g with Some q => [q] | None => [] end ++ [w]) ++ dash :: t)
          by (destruct g; cbn; [now rewrite <- app_assoc|reflexivity]) end.
      rewrite split_app.
      assert (N : ~ In dash (join [underscore] (match g with Some q => [q] | None => [] end ++ [w]))).
      { destruct g as [q|]; cbn; [|exact Hw]. rewrite in_app_iff. cbn. unfold underscore, dash in *.
        intros [H|[H|H]]; [contradiction|lia|contradiction]. }
      rewrite (split_none dash _ N). cbn [app]. pose proof (split_ne dash t) as Hne.
      destruct (split dash t) as [|v vs]; [contradiction|]. destruct vs; reflexivity.
    - inversion Hws as [|? ? H1 H2]; subst. cbn [app split_loop].
      cbv zeta. match goal with |- context[split dash ?x] => set (p := x) end.
      assert (N : ~ In dash p).
      { subst p. destruct g as [q|]; [|exact H1]. rewrite in_app_iff. cbn. unfold underscore, dash in *.
        intros [H|[H|H]]; [contradiction|lia|contradiction]. }
      rewrite (split_none dash _ N). rewrite IH by assumption.
      destruct (value_of (split dash t)) as [val|]; [cbn [bind]|reflexivity].
      apply (f_equal (fun k => split_loop value1 values None rest (gd_set streq params k val))).
      subst p. destruct g as [q|]; cbn [app]; [|reflexivity].
      destruct (ws ++ [w]) as [|p' l'] eqn:E; [now destruct ws|].
      change (q :: w0 :: p' :: l') with ([q] ++ [w0] ++ p' :: l').
      rewrite (join_app [underscore] [q]) by discriminate.
      rewrite (join_app [underscore] [w0]) by discriminate.
      rewrite (join_cons [underscore] (q ++ underscore :: w0)) by discriminate. cbn.
      now rewrite <- app_assoc.
  Qed.

  Lemma split_entry k t : ~ In underscore t ->
    split underscore (k ++ [dash] ++ t) = removelast (split underscore k) ++ [last (split underscore k) [] ++ dash :: t].
  Proof.
    intros Ht. induction k as [|a k IH].
    - cbn. unfold underscore, dash in *. change (45 =? 95) with false. cbv iota.
      rewrite (split_none 95 t) by exact Ht. reflexivity.
    - cbn [app split]. cbn [app] in IH. destruct (a =? underscore); rewrite IH.
      + pose proof (split_ne underscore k). destruct (split underscore k); [contradiction|]. reflexivity.
      + pose proof (split_ne underscore k). destruct (split underscore k) as [|w ws]; [contradiction|].
        destruct ws as [|w' ws]; reflexivity.
  Qed.

  Lemma split_loop_entry k t rest params : ~ In dash k -> ~ In underscore t ->
    split_loop value1 values None (split underscore (k ++ [dash] ++ t) ++ rest) params =
    do val <- value_of (split dash t);
    split_loop value1 values None rest (gd_set streq params k val).
  Proof.
    intros Hk Ht. rewrite split_entry by exact Ht. rewrite <- app_assoc. cbn [app].
    assert (HF : Forall (fun w => ~ In dash w) (split underscore k)).
    { apply Forall_forall. intros w Hw Hd. apply Hk. rewrite <- (join_split underscore k).
      revert w Hw Hd. generalize (split underscore k) as ws. clear. intros ws w Hw Hd.
      induction ws as [|x ws IH]; [destruct Hw|]. destruct ws as [|y ws].
      - destruct Hw as [->|[]]. exact Hd.
      - rewrite join_cons by discriminate. rewrite !in_app_iff. destruct Hw as [->|Hw]; [now left|right; right; auto]. }
    pose proof (split_ne underscore k) as Hne.
    assert (Esp := app_removelast_last [] Hne).
    rewrite split_loop_glue.
    - cbn [app].
      match goal with |- context[join [underscore] ?x] =>
        replace (join [underscore] x) with k
          by (transitivity (join [underscore] (split underscore k)); [symmetry; apply join_split|];
              apply f_equal; exact Esp) end.
      reflexivity.
    - intros [].
    - rewrite Esp in HF. now apply Forall_app in HF as [HF _].
    - rewrite Esp in HF. apply Forall_app in HF as [_ HF]. now inversion HF.
  Qed.

  Lemma split_loop_entries : forall (d : list (pystr * pystr)) params,
    Forall (fun p => ~ In dash (fst p) /\ ~ In underscore (snd p)) d ->
    split_loop value1 values None (flat_map (fun p => split underscore (fst p ++ [dash] ++ snd p)) d) params =
    do vals <- mapM (fun p => value_of (split dash (snd p))) d;
    Ok (fold_left (fun params p => gd_set streq params (fst p) (snd p)) (combine (map fst d) vals) params).
  Proof.
    induction d as [|[k t] d IH]; intros params HF; [reflexivity|].
    inversion HF as [|? ? [H1 H2] H3]; subst. cbn [flat_map fst snd mapM].
    rewrite split_loop_entry by assumption.
    destruct (value_of (split dash t)) as [val|e]; [|reflexivity]. cbn [bind].
    rewrite IH by assumption. destruct (mapM _ d); reflexivity.
  Qed.

  Lemma fold_set_nodup : forall (d params : list (pystr * V)), NoDup (map fst params ++ map fst d) ->
    fold_left (fun params p => gd_set streq params (fst p) (snd p)) d params = params ++ d.
  Proof.
    induction d as [|[k v] d IH]; intros params HN; cbn; [now rewrite app_nil_r|].
    cbn [map fst] in HN.
    rewrite set_fresh.
    - rewrite IH; [now rewrite <- app_assoc|]. rewrite map_app, <- app_assoc. exact HN.
    - exact streq_spec.
    - intros H. apply NoDup_remove_2 in HN. apply HN. apply in_app_iff. now left.
  Qed.

  Lemma split_whole (d : list (pystr * pystr)) : d <> [] -> NoDup (map fst d) ->
    Forall (fun p => ~ In dash (fst p) /\ ~ In underscore (snd p)) d ->
    let parts := split underscore (join [underscore] (map (fun p => fst p ++ [dash] ++ snd p) d)) in
    (Z.of_nat (length parts) <? 2) && negb (has_char dash (hd [] parts)) = false /\
    split_loop value1 values None parts [] =
    do vals <- mapM (fun p => value_of (split dash (snd p))) d; Ok (combine (map fst d) vals).
  Proof.
    intros Hd HN HF parts. subst parts.
    rewrite split_join_gen by (destruct d; [contradiction|discriminate]).
    rewrite flat_map_concat_map, map_map, <- flat_map_concat_map.
    split.
    - destruct d as [|[k t] d]; [contradiction|]. cbn [flat_map fst snd].
      inversion HF as [|? ? [H1 H2] H3]; subst. cbn [fst snd] in *. rewrite split_entry by exact H2.
      destruct (removelast (split underscore k)) as [|w ws].
      + cbn [app hd]. rewrite (proj2 (has_char_in _ _)); [apply andb_false_r|]. apply in_app_iff. right. now left.
      + assert (E : forall n : nat, (2 <= n)%nat -> (Z.of_nat n <? 2) = false) by (intros; apply Z.ltb_ge; lia).
        rewrite E; [reflexivity|]. rewrite !app_length. cbn. lia.
    - rewrite split_loop_entries by exact HF.
      destruct (mapM _ d) as [vals|] eqn:E; [|reflexivity]. cbn [bind].
      assert (L : length vals = length d).
      { clear -E. revert vals E. induction d as [|p d IH]; intros vals; cbn; [now intros E; injection E as <-|].
        destruct (value_of _); [|discriminate]. cbn [bind]. destruct (mapM _ d); [|discriminate].
        intros E; injection E as <-. cbn. now rewrite (IH _ eq_refl). }
      rewrite fold_set_nodup; [reflexivity|]. cbn [map app].
      rewrite combine_fst by (rewrite map_length; exact L). exact HN.
  Qed.
End entries.

Lemma text_ok v t : clean_string v = Ok t -> text v = t.
Proof. unfold text. now intros ->. Qed.

Lemma mapM_ok {A B} (f : A -> result B) (g : A -> B) l : (forall x, In x l -> f x = Ok (g x)) ->
  mapM f l = Ok (map g l).
Proof.
  induction l as [|x l IH]; intros H; [reflexivity|]. cbn. rewrite H by now left. cbn [bind].
  rewrite IH by (intros; apply H; now right). reflexivity.
Qed.

(** the entries of a dictionary, as texts *)
Lemma texts_ok d s : d <> [] -> NoDup (map fst d) -> clean_string (VDict d) = Ok s ->
  (forall k v, In (k, v) d -> ~ In dash k) ->
  (forall k v t, In (k, v) d -> clean_string v = Ok t -> ~ In underscore t) ->
  let e := map (fun p => (fst p, text (snd p))) (sort_items d) in
  e <> [] /\ NoDup (map fst e) /\
  Forall (fun p => ~ In dash (fst p) /\ ~ In underscore (snd p)) e /\
  s = join [underscore] (map (fun p => fst p ++ [dash] ++ snd p) e) /\
  (forall k v, In (k, v) d -> clean_string v = Ok (text v)).
Proof.
  intros Hd HN E Hk Ht e. subst e.
  assert (HO : forall k v, In (k, v) d -> clean_string v = Ok (text v)).
  { intros k v Hin. unfold text.
    assert (HA : all_keys (fun k => k <> []) (VDict d)) by (apply clean_ok_iff; eauto).
    apply all_keys_dict in HA. rewrite Forall_forall in HA. specialize (HA _ Hin). cbn in HA.
    destruct HA as [_ HA]. apply clean_ok_iff in HA as (t & ->). reflexivity. }
  assert (HI : forall p, In p (sort_items d) -> In p d).
  { intros p Hp. eapply Permutation_in; [apply Permutation_sym, sort_items_perm|exact Hp]. }
  split; [|split; [|split; [|split]]].
  - intros H. apply map_eq_nil in H. pose proof (sort_items_perm d) as P. rewrite H in P.
    apply Permutation_sym, Permutation_nil in P. contradiction.
  - rewrite map_map. cbn. now apply sort_items_nodup.
  - apply Forall_forall. intros p Hp. apply in_map_iff in Hp as ([k v] & <- & Hp). cbn [fst snd].
    apply HI in Hp. split; [eapply Hk; exact Hp|]. eapply Ht; [exact Hp|]. eapply HO; exact Hp.
  - apply clean_dict_text in E. rewrite E. rewrite map_map. reflexivity.
  - exact HO.
Qed.

Lemma combine_map {A B C} (f : A -> B) (g : A -> C) l : combine (map f l) (map g l) = map (fun x => (f x, g x)) l.
Proof. induction l as [|x l IH]; cbn; [reflexivity|]. now rewrite IH. Qed.

Lemma flat_round d s : d <> [] -> NoDup (map fst d) -> clean_string (VDict d) = Ok s ->
  (forall k v, In (k, v) d -> ~ In dash k) ->
  (forall k v t, In (k, v) d -> clean_string v = Ok t -> ~ In underscore t) ->
  exists params, split_params_flat s = Ok params /\
    Permutation (map fst params) (map fst d) /\
    forall k v t, In (k, v) d -> clean_string v = Ok t -> gd_get streq params k = Some (Some t).
Proof.
  intros Hd HN E Hk Ht. destruct (texts_ok d s Hd HN E Hk Ht) as (T1 & T2 & T3 & T4 & T5).
  set (e := map (fun p => (fst p, text (snd p))) (sort_items d)) in *.
  exists (map (fun p => (fst p, Some (snd p))) e).
  destruct (split_whole (fun v => Ok (Some v)) (fun vs => Ok (Some (join [dash] vs))) e T1 T2 T3) as [S1 S2].
  split.
  - unfold split_params_flat. rewrite T4, S1, S2.
    rewrite (mapM_ok _ (fun p => Some (snd p))).
    + cbn [bind]. now rewrite combine_map.
    + intros [k t] _. cbn [fst snd]. transitivity (@Ok (option pystr) (Some (join [dash] (split dash t)))).
      * unfold value_of. pose proof (split_ne dash t). destruct (split dash t) as [|v [|v' vs]]; [contradiction| |]; reflexivity.
      * now rewrite join_split.
  - split.
    + rewrite map_map. cbn [fst]. subst e. rewrite map_map. cbn [fst]. apply Permutation_map, Permutation_sym, sort_items_perm.
    + intros k v t Hin Et. apply in_get.
      * exact streq_spec.
      * rewrite map_map. exact T2.
      * apply in_map_iff. exists (k, t). split; [reflexivity|]. subst e. apply in_map_iff.
        exists (k, v). cbn [fst snd]. rewrite (text_ok _ _ Et). split; [reflexivity|].
        eapply Permutation_in; [apply sort_items_perm|exact Hin].
Qed.

(** ** Reading values back *)
Lemma Forall_safe_lit1 : Forall safe (lit "None"). Proof. repeat constructor; unfold safe; cbn; lia. Qed.
Lemma Forall_safe_lit2 : Forall safe (lit "True"). Proof. repeat constructor; unfold safe; cbn; lia. Qed.
Lemma Forall_safe_lit3 : Forall safe (lit "False"). Proof. repeat constructor; unfold safe; cbn; lia. Qed.

Section deep.
  Variable literal_eval : pystr -> option pval.
  Variable uni : pystr -> option Z.
  Variable uninumeric : pystr -> bool.
  Hypothesis HE : evaluates literal_eval.
  Notation de := (de_string literal_eval uni uninumeric).

  (** one piece: no dash, no underscore, and it evaluates to the item *)
  Lemma item_text v : item literal_eval uninumeric v ->
    exists t, clean_string v = Ok t /\ ~ In dash t /\ ~ In underscore t /\ de t = Ok v /\
      (v <> VStr [] -> t <> []).
  Proof.
    destruct HE as (E1 & E2 & E3 & E4). unfold de_string.
    intros [|b|n Hn|s (W1 & W2 & W3) L N|s W0 (W1 & W2 & W3) L].
    - exists (lit "None"). cbn [clean_string]. rewrite (keep_id _ Forall_safe_lit1).
      cbn [de_string_fuel]. rewrite E2. repeat split; try discriminate; cbn; unfold dash, underscore; lia.
    - destruct b.
      + exists (lit "True"). cbn [clean_string]. rewrite (keep_id _ Forall_safe_lit2).
        cbn [de_string_fuel]. rewrite E3. repeat split; try discriminate; cbn; unfold dash, underscore; lia.
      + exists (lit "False"). cbn [clean_string]. rewrite (keep_id _ Forall_safe_lit3).
        cbn [de_string_fuel]. rewrite E4. repeat split; try discriminate; cbn; unfold dash, underscore; lia.
    - exists (str_of_int n). cbn [clean_string]. rewrite (keep_id _ (safe_int n)).
      cbn [de_string_fuel]. rewrite E1. split; [reflexivity|].
      destruct (str_of_nat_spec n Hn) as (A & B & _).
      rewrite str_of_nat_pos by exact Hn.
      split; [apply (digits_no _ _ B); unfold dash; lia|].
      split; [apply (digits_no _ _ B); unfold underscore; lia|]. split; [reflexivity|]. intros _. exact A.
    - exists s. cbn [clean_string]. rewrite (keep_id _ W1). cbn [de_string_fuel]. rewrite L, N.
      assert (H1 : has_char underscore s = false) by (apply not_true_is_false; rewrite has_char_in; exact W3).
      assert (H2 : has_char dash s = false) by (apply not_true_is_false; rewrite has_char_in; exact W2).
      rewrite H1, H2. cbn [andb]. repeat split; try assumption. congruence.
    - exists s. cbn [clean_string]. rewrite (keep_id _ W1). cbn [de_string_fuel]. rewrite L.
      repeat split; try assumption. intros _. exact W0.
  Qed.

  Lemma items_text l : Forall (item literal_eval uninumeric) l -> exists ts, clean_list l = Ok ts /\
    Forall (fun t => ~ In dash t /\ ~ In underscore t) ts /\ mapM de ts = Ok l.
  Proof.
    induction 1 as [|v l Hv _ (ts & E & F & M)]; [exists []; repeat split; constructor|].
    destruct (item_text v Hv) as (t & Et & T1 & T2 & T3 & _). exists (t :: ts).
    rewrite clean_list_cons, Et. cbn [bind]. rewrite E. split; [reflexivity|].
    split; [constructor; [split; assumption|assumption]|]. cbn [mapM]. rewrite T3. cbn [bind]. now rewrite M.
  Qed.

  Notation values := (fun vs => match vs with
                      | [] :: _ => de (join [dash] vs)
                      | _ => do l <- mapM de vs; Ok (VList l)
                      end).

  Lemma restorable_text v : restorable literal_eval uninumeric v ->
    exists t, clean_string v = Ok t /\ ~ In underscore t /\ value_of de values (split dash t) = Ok v.
  Proof.
    intros [v' Hv|n Hn|s (W1 & W2 & W3) L|v0 w l Hne Hv Hw Hl].
    - destruct (item_text v' Hv) as (t & Et & T1 & T2 & T3 & _). exists t. split; [exact Et|].
      split; [exact T2|]. rewrite (split_none dash t T1). exact T3.
    - exists (str_of_int n). cbn [clean_string]. rewrite (keep_id _ (safe_int n)). split; [reflexivity|].
      split; [apply str_of_int_no|].
      assert (E : str_of_int n = dash :: str_of_nat (- n)).
      { unfold str_of_int. apply Z.ltb_lt in Hn. now rewrite Hn. }
      assert (J := join_split dash (str_of_int n)).
      rewrite E in J |- *. cbn [split] in J |- *. rewrite Z.eqb_refl in J |- *.
      rewrite split_dash_nat in J |- * by lia. cbn [value_of]. rewrite J, <- E.
      unfold de_string. cbn [de_string_fuel]. destruct HE as (E1 & _). now rewrite E1.
    - exists (dash :: s). cbn [clean_string]. rewrite keep_id by (constructor; [apply safe_dash|exact W1]).
      split; [reflexivity|]. split; [intros [H|H]; [unfold dash, underscore in H; lia|contradiction]|].
      assert (J := join_split dash (dash :: s)).
      cbn [split] in J |- *. rewrite Z.eqb_refl in J |- *.
      rewrite (split_none dash s W2) in J |- *. cbn [value_of]. rewrite J.
      unfold de_string. cbn [de_string_fuel]. now rewrite L.
    - destruct (items_text (v0 :: w :: l)) as (ts & E & F & M); [repeat constructor; assumption|].
      destruct (item_text v0 Hv) as (t0 & Et0 & _ & _ & _ & T0). specialize (T0 Hne).
      exists (join [dash] ts). rewrite clean_vlist, E. split; [reflexivity|].
      assert (Ets : exists t1 ts', ts = t0 :: t1 :: ts').
      { rewrite !clean_list_cons, Et0 in E. cbn [bind] in E. destruct (clean_string w); [|discriminate].
        cbn [bind] in E. destruct (clean_list l); [|discriminate]. cbn [bind] in E. injection E as <-. eauto. }
      assert (F1 : Forall (fun t => ~ In dash t) ts) by (eapply Forall_impl; [|exact F]; now intros t [? ?]).
      assert (F2 : Forall (fun t => ~ In underscore t) ts) by (eapply Forall_impl; [|exact F]; now intros t [? ?]).
      split.
      + intros H. enough (G : Forall (fun c => c <> underscore) (join [dash] ts)).
        { rewrite Forall_forall in G. now apply (G _ H). }
        apply join_forall; [repeat constructor; unfold dash, underscore; lia|].
        eapply Forall_impl; [|exact F2]. intros t Ht. apply Forall_forall. intros c Hc ->. contradiction.
      + rewrite split_join; [|destruct Ets as (? & ? & ->); discriminate|exact F1].
        destruct Ets as (t1 & ts' & ->). cbn [value_of]. rewrite M.
        destruct t0; [contradiction|]. reflexivity.
  Qed.

  Lemma deep_round d s : d <> [] -> NoDup (map fst d) -> clean_string (VDict d) = Ok s ->
    (forall k v, In (k, v) d -> ~ In dash k /\ restorable literal_eval uninumeric v) ->
    exists params, split_params literal_eval uni uninumeric s = Ok params /\ Permutation params d.
  Proof.
    intros Hd HN E Hr.
    assert (Hk : forall k v, In (k, v) d -> ~ In dash k) by (intros k v H; now apply (Hr k v H)).
    assert (Ht : forall k v t, In (k, v) d -> clean_string v = Ok t -> ~ In underscore t).
    { intros k v t Hin Et. destruct (restorable_text v) as (t' & Et' & N & _); [now apply (Hr k v)|]. congruence. }
    destruct (texts_ok d s Hd HN E Hk Ht) as (T1 & T2 & T3 & T4 & T5).
    set (e := map (fun p => (fst p, text (snd p))) (sort_items d)) in *.
    exists (sort_items d). split; [|apply Permutation_sym, sort_items_perm].
    destruct (split_whole de values e T1 T2 T3) as [S1 S2].
    unfold split_params, split_params_with. rewrite T4, S1, S2.
    assert (M : mapM (fun p => value_of de values (split dash (snd p))) e = Ok (map snd (sort_items d))).
    { subst e. assert (HI : forall p, In p (sort_items d) -> In p d).
      { intros p Hp. eapply Permutation_in; [apply Permutation_sym, sort_items_perm|exact Hp]. }
      revert HI. generalize (sort_items d). clear T1 T2 T3 T4 S1 S2. intros l HI.
      induction l as [|[k v] l IH]; [reflexivity|]. cbn [map mapM fst snd].
      destruct (restorable_text v) as (t & Et & _ & Ev); [apply (Hr k v), HI; now left|].
      rewrite (text_ok _ _ Et), Ev. cbn [bind]. rewrite IH by (intros; apply HI; now right). reflexivity. }
    rewrite M. cbn [bind]. f_equal. subst e. rewrite map_map. cbn [fst]. rewrite combine_map.
    transitivity (map (fun p : pystr * pval => p) (sort_items d)); [|apply map_id].
    apply map_ext. now intros [].
  Qed.
End deep.

(** ** The nesting of de_string *)
Section fuel.
  Context {V : Type} (value1 : pystr -> result V) (values : list pystr -> result V).
  Lemma split_loop_error e : forall parts g params,
    Forall (fun w => ~ In underscore w) parts -> ~ In dash (match g with Some q => q | None => [] end) ->
    split_loop value1 values g parts params = Err e ->
    e = IndexError \/
    (exists v, ~ In underscore v /\ ~ In dash v /\ value1 v = Err e) \/
    (exists vs, Forall (fun w => ~ In underscore w /\ ~ In dash w) vs /\ values vs = Err e).
  Proof.
    induction parts as [|p parts IH]; intros g params HF Hg.
    - cbn. destruct g; [|discriminate]. intros E; injection E as <-. now left.
    - inversion HF as [|? ? F1 F2]; subst. cbn [split_loop]. cbv zeta.
      match goal with |- context[split dash ?x] => set (q := x) end.
      assert (HV : forall k vs, split dash q = k :: vs -> Forall (fun w => ~ In underscore w /\ ~ In dash w) vs).
      { intros k vs Es. pose proof (split_free dash q) as D. rewrite Es in D. inversion D as [|? ? D1 D2]; subst.
        assert (U : Forall (fun w => ~ In underscore w) vs).
        { apply Forall_forall. intros w Hw Hu.
          (* everything after the first dash of q is in p *)
          assert (Q : exists a b, split dash p = a :: b /\ vs = b).
          { subst q. destruct g as [g|].
            - assert (N : ~ In dash (g ++ [underscore])).
              { rewrite in_app_iff. intros [H|[H|[]]]; [contradiction|unfold dash, underscore in H; lia]. }
              replace (g ++ [underscore] ++ p) with ((g ++ [underscore]) ++ p) in Es by now rewrite <- app_assoc.
              revert k Es D D1. clear -N. induction (g ++ [underscore]) as [|a l IHl]; intros k Es D D1.
              + cbn in Es. exists k, vs. split; [exact Es|reflexivity].
              + cbn [app split] in Es. destruct (Z.eqb_spec a dash) as [->|Na]; [exfalso; apply N; now left|].
                pose proof (split_ne dash (l ++ p)) as Hne. destruct (split dash (l ++ p)) as [|w ws] eqn:E; [contradiction|].
                injection Es as <- ->. apply (IHl ltac:(intros H; apply N; now right) w eq_refl).
                * inversion D; subst. constructor; [|assumption]. intros H. apply D1. now right.
                * intros H. apply D1. now right.
            - exists k, vs. split; [exact Es|reflexivity]. }
          destruct Q as (a & b & Q1 & ->). apply F1. rewrite <- (join_split dash p), Q1.
          clear -Hw Hu. revert a. induction b as [|x b IHb]; intros a; [destruct Hw|].
          rewrite join_cons by discriminate. rewrite !in_app_iff. right. right.
          destruct Hw as [->|Hw]; [|now apply IHb].
          destruct b; [exact Hu|]. rewrite join_cons by discriminate. rewrite in_app_iff. now left. }
        rewrite Forall_forall in U, D2 |- *. auto. }
      assert (HG : forall k, split dash q = [k] -> ~ In dash q).
      { intros k Es H. apply split_length in H. rewrite Es in H. cbn in H. lia. }
      destruct (split dash q) as [|k [|v vs]] eqn:Es.
      + now destruct (split_ne dash q).
      + intros E. apply (IH (Some q) params F2); [now apply (HG k)|exact E].
      + pose proof (HV k (v :: vs) eq_refl) as HVV.
        destruct vs as [|v' vs].
        * destruct (value1 v) eqn:Ev; cbn [bind].
          -- intros E. apply (IH None _ F2 (fun x => x) E).
          -- intros E; injection E as ->. right; left. exists v. inversion HVV; subst. tauto.
        * destruct (values (v :: v' :: vs)) eqn:Ev; cbn [bind].
          -- intros E. apply (IH None _ F2 (fun x => x) E).
          -- intros E; injection E as ->. right; right. eauto.
  Qed.
End fuel.

Lemma mapM_err {A B} (f : A -> result B) l e : mapM f l = Err e -> exists x, In x l /\ f x = Err e.
Proof.
  induction l as [|x l IH]; [discriminate|]. cbn. destruct (f x) eqn:E; cbn [bind].
  - destruct (mapM f l); cbn [bind]; [discriminate|]. intros H; injection H as ->.
    destruct (IH eq_refl) as (y & H1 & H2). eauto.
  - intros H; injection H as ->. eauto.
Qed.

Section fuel2.
  Variable literal_eval : pystr -> option pval.
  Variable uni : pystr -> option Z.
  Variable uninumeric : pystr -> bool.
  Notation def := (de_string_fuel literal_eval uni uninumeric).

  Lemma fuel1 n s : ~ In dash s -> ~ In underscore s -> def (S n) s <> Err OutOfFuel.
  Proof.
    intros H1 H2. cbn. destruct (literal_eval s); [discriminate|].
    destruct (isnumeric uninumeric s); [now destruct (int_of_str uni s)|].
    rewrite <- has_char_in in H1, H2. apply not_true_is_false in H1, H2. rewrite H1, H2. discriminate.
  Qed.
  Lemma fuel2 n s : ~ In underscore s -> def (S (S n)) s <> Err OutOfFuel.
  Proof.
    intros H2. cbn -[de_string_fuel]. set (d := def (S n)). cbn. destruct (literal_eval s); [discriminate|].
    destruct (isnumeric uninumeric s); [now destruct (int_of_str uni s)|].
    assert (H3 := H2). rewrite <- has_char_in in H3. apply not_true_is_false in H3. rewrite H3.
    destruct (has_char dash s && _); [|discriminate].
    destruct (mapM _ (split dash s)) eqn:E; [discriminate|]. cbn [bind]. intros Ee; injection Ee as ->.
    apply mapM_err in E as (x & Hx & Ex). revert Ex. apply (fuel1 n).
    - pose proof (split_free dash s) as F. rewrite Forall_forall in F. auto.
    - intros Hu. apply H2. rewrite <- (join_split dash s). revert Hx Hu. generalize (split dash s). clear.
      induction l as [|a l IH]; intros Hx Hu; [destruct Hx|]. destruct l as [|b l].
      + destruct Hx as [->|[]]. exact Hu.
      + rewrite join_cons by discriminate. rewrite !in_app_iff. destruct Hx as [->|Hx]; [now left|right; right; auto].
  Qed.
  Lemma de_string_total s : de_string literal_eval uni uninumeric s <> Err OutOfFuel.
  Proof.
    unfold de_string. set (n := 2%nat). cbn [de_string_fuel]. destruct (literal_eval s); [discriminate|].
    destruct (isnumeric uninumeric s); [now destruct (int_of_str uni s)|].
    destruct (has_char underscore s) eqn:Hu.
    - unfold split_params_with.
      destruct (_ && _); [discriminate|].
      destruct (split_loop _ _ None _ []) eqn:E; [discriminate|]. cbn [bind]. intros Ee; injection Ee as ->.
      apply split_loop_error in E; [|apply split_free|intros []].
      destruct E as [E|[(v & V1 & V2 & E)|(vs & Hvs & E)]]; [discriminate| |].
      + revert E. now apply (fuel1 1).
      + assert (G : forall vs', Forall (fun w => ~ In underscore w /\ ~ In dash w) vs' ->
                  mapM (def n) vs' <> Err OutOfFuel).
        { intros vs' Hv' Em. apply mapM_err in Em as (x & Hx & Ex). rewrite Forall_forall in Hv'.
          apply Hv' in Hx as [X1 X2]. revert Ex. now apply (fuel1 1). }
        specialize (G vs Hvs).
        destruct vs as [|[|c v] vs].
        * discriminate.
        * revert E. apply (fuel2 0). intros H.
          enough (Q : Forall (fun c => c <> underscore) (join [dash] ([] :: vs))) by (rewrite Forall_forall in Q; now apply (Q _ H)).
          apply join_forall; [repeat constructor; unfold dash, underscore; lia|].
          eapply Forall_impl; [|exact Hvs]. intros t [Ht _]. apply Forall_forall. intros x Hx ->. contradiction.
        * destruct (mapM (def n) ((c :: v) :: vs)) eqn:Em; [discriminate|]. cbn [bind] in E. congruence.
    - destruct (has_char dash s && _); [|discriminate].
      destruct (mapM (def n) (split dash s)) eqn:E; [discriminate|]. cbn [bind]. intros Ee; injection Ee as ->.
      apply mapM_err in E as (x & Hx & Ex). revert Ex. apply (fuel2 0).
      intros H. assert (Hs : ~ In underscore s) by (rewrite <- has_char_in, Hu; discriminate).
      apply Hs. rewrite <- (join_split dash s). revert Hx H. generalize (split dash s). clear.
      induction l as [|a l IH]; intros Hx Hu; [destruct Hx|]. destruct l as [|b l].
      + destruct Hx as [->|[]]. exact Hu.
      + rewrite join_cons by discriminate. rewrite !in_app_iff. destruct Hx as [->|Hx]; [now left|right; right; auto].
  Qed.
End fuel2.

(** ** What does not come back *)
Lemma names_not_cleaned : exists v t c, clean_string v = Ok t /\ In c t /\ ~ safe c.
Proof.
  exists (VDict [(lit "a/b", VInt 1)]), (lit "a/b-1"), 47. split; [reflexivity|].
  split; [cbn; auto|]. unfold safe. lia.
Qed.

Lemma empty_not_restored : clean_string (VDict []) = Ok [] /\ split_params_flat [] = Ok [([], None)].
Proof. split; reflexivity. Qed.

Section not_restored.
  Variable literal_eval : pystr -> option pval.
  Variable uni : pystr -> option Z.
  Variable uninumeric : pystr -> bool.
  Hypothesis HE : evaluates literal_eval.

  Lemma short_list_lost n : 0 <= n ->
    exists s, clean_string (VDict [(lit "k", VList [VInt n])]) = Ok s /\
      split_params literal_eval uni uninumeric s = Ok [(lit "k", VInt n)].
  Proof.
    intros Hn.
    assert (E : clean_string (VDict [(lit "k", VList [VInt n])]) = clean_string (VDict [(lit "k", VInt n)])) by reflexivity.
    rewrite E. clear E.
    destruct (clean_string (VDict [(lit "k", VInt n)])) as [s|] eqn:Es; [|discriminate].
    exists s. split; [reflexivity|].
    destruct (deep_round literal_eval uni uninumeric HE [(lit "k", VInt n)] s) as (params & E & P).
    - discriminate.
    - repeat constructor. intros [].
    - exact Es.
    - intros k v [H|[]]. injection H as <- <-. split; [cbn; unfold dash; lia|]. now repeat constructor.
    - apply Permutation_sym, Permutation_length_1_inv in P. now subst.
  Qed.

  (** a string that reads as a number *)
  Lemma number_string_lost n : exists s, clean_string (VDict [(lit "k", VStr (str_of_int n))]) = Ok s /\
      split_params literal_eval uni uninumeric s = Ok [(lit "k", VInt n)].
  Proof.
    assert (E : clean_string (VDict [(lit "k", VStr (str_of_int n))]) = clean_string (VDict [(lit "k", VInt n)])) by reflexivity.
    rewrite E. clear E.
    destruct (clean_string (VDict [(lit "k", VInt n)])) as [s|] eqn:Es; [|discriminate].
    exists s. split; [reflexivity|].
    destruct (deep_round literal_eval uni uninumeric HE [(lit "k", VInt n)] s) as (params & E & P).
    - discriminate.
    - repeat constructor. intros [].
    - exact Es.
    - intros k v [H|[]]. injection H as <- <-. split; [cbn; unfold dash; lia|].
      destruct (Z.lt_ge_cases n 0); [now apply rest_negative|apply rest_item; now constructor].
    - apply Permutation_sym, Permutation_length_1_inv in P. now subst.
  Qed.

  (** a small float, whose text has a dash *)
  Lemma small_float_lost : literal_eval (lit "1e") = None -> literal_eval (lit "05") = None ->
    exists s, clean_string (VDict [(lit "k", VOther (lit "1e-05"))]) = Ok s /\
      split_params literal_eval uni uninumeric s = Ok [(lit "k", VList [VStr (lit "1e"); VInt 5])].
  Proof.
    intros L1 L2. exists (lit "k-1e-05"). split; [reflexivity|].
    cbv. cbv in L1, L2. rewrite L1, L2. reflexivity.
  Qed.
End not_restored.
