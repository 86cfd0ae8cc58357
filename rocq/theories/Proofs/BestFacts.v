(** The file with a feature and the fewest others. *)
From Verif Require Import Proofs.StrFacts Proofs.PathFacts Proofs.DirsFacts Proofs.UtilNamesFacts Proofs.WalkFacts Proofs.GzipFacts Spec.Structures Spec.GzipSpec Spec.BestSpec.
Open Scope Z_scope.

Definition of_feature (s a : pystr) : Prop := feature_name a /\ (s = a \/ exists t, s = a ++ underscore :: t).

Lemma clean_feature a : feature_name a -> uclean a = a.
Proof.
  unfold uclean. induction 1 as [|c a (H1 & H2 & _) HF IH]; [reflexivity|]. cbn [filter]. rewrite H1, (proj2 (Z.eqb_neq c dash) H2). cbn [andb negb]. now rewrite IH.
Qed.
Lemma feature_free a c : feature_name a -> In c a -> c <> dash /\ c <> underscore /\ c <> slash.
Proof.
  intros HF Hc. unfold feature_name in HF. rewrite Forall_forall in HF. destruct (HF c Hc) as (H1 & H2 & H3). split; [exact H2|]. split; [exact H3|]. intros ->. discriminate H1.
Qed.
Lemma feature_best s a : of_feature s a -> join_items (UList (map UStr (remove_modifiers [s] false None))) true = a.
Proof.
  intros [HF HS]. unfold remove_modifiers. cbn [fold_left existsb app map].
  assert (E : fst (split_modifiers s None) = a).
  { unfold split_modifiers. assert (Na : ~ In underscore a) by (intros H; apply (feature_free a _ HF) in H; intuition). destruct HS as [->|[t ->]].
    - now rewrite StrFacts.split_none.
    - rewrite StrFacts.split_app, StrFacts.split_none by exact Na. reflexivity. }
  rewrite E. unfold join_items. cbn [map ustr sort]. rewrite clean_feature by exact HF. reflexivity.
Qed.
Lemma feature_plain a : feature_name a -> plain (a ++ lit ".txt").
Proof.
  intros HF. split; [now destruct a|]. split.
  - intros H. apply in_app_or in H as [H|H]; [apply (feature_free a _ HF) in H; intuition|cbn in H; intuition discriminate].
  - split; intros E; apply (f_equal (@rev _)) in E; rewrite rev_app_distr in E; discriminate E.
Qed.
Lemma named_plain base c : plain c -> (exists x, In x c /\ x <> dot) -> named (path_join2 base c).
Proof.
  intros HP (x & Hx & Nx). rewrite join2_plain by exact HP. exists (before base), c, x. split; [reflexivity|]. split; [|split; [apply HP|now split]].
  unfold before. destruct base as [|b base]; [now left|]. right. destruct (ends_with slash (b :: base)) eqn:E; [|now exists (b :: base)].
  unfold ends_with in E. destruct (rev (b :: base)) as [|y r] eqn:ER; [discriminate E|]. cbn [starts_with] in E. apply Z.eqb_eq in E as ->. exists (rev r).
  apply (f_equal (@rev _)) in ER. now rewrite rev_involutive in ER.
Qed.
Lemma best_named base a : feature_name a -> named (path_join2 base (a ++ lit ".txt")).
Proof. intros HF. apply named_plain; [now apply feature_plain|]. exists 116. split; [apply in_or_app; right; now right; left|discriminate]. Qed.
Lemma split_named base c : plain c -> snd (path_split (path_join2 base c)) = c.
Proof.
  intros HP. rewrite join2_plain by exact HP. unfold path_split. destruct HP as (_ & HS & _). unfold before. destruct base as [|b base]; [cbn [app]; now rewrite cut_last_none|].
  destruct (ends_with slash (b :: base)) eqn:E.
  - unfold ends_with in E. destruct (rev (b :: base)) as [|y r] eqn:ER; [discriminate E|]. cbn [starts_with] in E. apply Z.eqb_eq in E as ->.
    apply (f_equal (@rev _)) in ER. rewrite rev_involutive in ER. rewrite ER. cbn [rev]. rewrite <- app_assoc. cbn [app]. now rewrite cut_last_app.
  - rewrite <- app_assoc. cbn [app]. rewrite app_comm_cons. now rewrite cut_last_app.
Qed.
Lemma text_ext p a : snd (splitext (p ++ a ++ lit ".txt")) = lit ".gz" -> False.
Proof.
  intros H. pose proof (splitext_app (p ++ a ++ lit ".txt")) as E. rewrite H in E. apply (f_equal (@rev _)) in E. rewrite !rev_app_distr in E. cbn in E. discriminate E.
Qed.

Section facts.
  Variable gunz : list Z -> list Z * bool.
  Variable dec : list Z -> option pystr.
  Variable enc : pystr -> option (list Z).
  Context {F : Type} (float_of : pystr -> option F).
  Variable uni : pystr -> option Z.
  Variable uninumeric : pystr -> bool.
  Variable numeq : @item_ F -> @item_ F -> bool.
  Notation eq := (item_eq numeq).
  Notation best := (get_best_file_match gunz dec enc float_of uni uninumeric numeq).

  Theorem lists_raise fs ls l base : best fs ls (FMany l) base = (fs, Err AttributeError).
  Proof. reflexivity. Qed.

  Lemma best_items a r : feature_name a -> split_item float_of uni uninumeric a = Ok r -> split_items float_of uni uninumeric a = Ok [r].
  Proof.
    intros HF Hr. unfold split_items. rewrite StrFacts.split_none by (intros H; apply (feature_free a _ HF) in H; intuition). cbn [mapM]. rewrite Hr. reflexivity.
  Qed.
  Theorem best_there fs ls s a base b r : of_feature s a -> split_item float_of uni uninumeric a = Ok r -> fs (path_join2 base (a ++ lit ".txt")) = Some b ->
    best fs ls (FOne s) base = (fs, Ok (a ++ lit ".txt")).
  Proof.
    intros HA Hr Hb. unfold get_best_file_match. rewrite (feature_best s a HA), (best_items a r (proj1 HA) Hr).
    set (p := path_join2 base (a ++ lit ".txt")) in *. assert (HP : p <> []).
    { unfold p. rewrite join2_plain by apply feature_plain, HA. destruct (before base), a; discriminate. }
    unfold file_exists. unfold file_there. rewrite Hb. destruct p as [|x p'] eqn:Ep; [contradiction|]. rewrite <- Ep. unfold p. rewrite split_named by apply feature_plain, HA. reflexivity.
  Qed.
  Theorem best_zipped fs ls s a base packed data r : of_feature s a -> split_item float_of uni uninumeric a = Ok r -> lossless dec enc ->
    fs (path_join2 base (a ++ lit ".txt")) = None -> fs (path_join2 base (a ++ lit ".txt") ++ lit ".gz") = Some packed -> gunz packed = (data, true) -> readable dec data ->
    exists fs', best fs ls (FOne s) base = (fs', Ok (a ++ lit ".txt")) /\ fs' (path_join2 base (a ++ lit ".txt")) = Some data.
  Proof.
    intros HA Hr HL H0 H1 H2 H3. unfold get_best_file_match. rewrite (feature_best s a HA), (best_items a r (proj1 HA) Hr).
    pose proof (best_named base a (proj1 HA)) as HN. set (p := path_join2 base (a ++ lit ".txt")) in *. destruct (unzip_does gunz dec enc fs p false packed data HN HL H0 H1 H2 H3) as (fs' & E & P1 & _).
    exists fs'. split; [|exact P1]. unfold file_exists. assert (HX : snd (splitext p) = lit ".gz" -> False).
    { unfold p. rewrite join2_plain by apply feature_plain, HA. apply text_ext. }
    assert (EX : streq (snd (splitext p)) (lit ".gz") = false) by (apply not_true_iff_false; intros H; apply streq_spec in H; exact (HX H)).
    unfold file_there. rewrite H0, H1, EX, E. cbn [andb bind]. destruct p as [|x p'] eqn:Ep.
    - exfalso. unfold p in Ep. rewrite join2_plain in Ep by apply feature_plain, HA. destruct (before base), a; discriminate Ep.
    - rewrite <- Ep. unfold p. rewrite split_named by apply feature_plain, HA. reflexivity.
  Qed.

  (** sets *)
  Hypothesis HE : equivalence eq.
  Lemma apart_snoc s x : apart eq s -> existsb (eq x) s = false -> apart eq (s ++ [x]).
  Proof.
    destruct HE as (_ & HS & _). induction s as [|a s IH]; cbn [app apart existsb]; intros HA HX; [split; [constructor|exact I]|]. apply orb_false_iff in HX as [X1 X2]. destruct HA as [A1 A2].
    split; [|now apply IH]. apply Forall_app. split; [exact A1|]. constructor; [|constructor]. apply not_true_iff_false. intros H. apply HS in H. congruence.
  Qed.
  Lemma set_gen l : forall s, apart eq s -> let s' := fold_left (fun s x => if existsb (eq x) s then s else s ++ [x]) l s in
    apart eq s' /\ (forall x, In x s' -> In x s \/ In x l) /\ (forall i, In i s \/ In i l -> exists d, In d s' /\ eq d i = true).
  Proof.
    destruct HE as (HR & HS & _). induction l as [|x l IH]; intros s HA; cbn [fold_left].
    - split; [exact HA|]. split; [now left|]. intros i [H|[]]. exists i. split; [exact H|apply HR].
    - destruct (existsb (eq x) s) eqn:E.
      + destruct (IH s HA) as (I1 & I2 & I3). split; [exact I1|]. split; [intros y Hy; apply I2 in Hy as [H|H]; [now left|right; now right]|].
        intros i [H|[<-|H]]; [apply I3; now left| |apply I3; now right]. apply existsb_exists in E as (y & Hy & E). destruct (I3 y (or_introl Hy)) as (d & Hd & Ed).
        exists d. split; [exact Hd|]. destruct HE as (_ & _ & HT). apply HT with y; [exact Ed|now apply HS].
      + destruct (IH (s ++ [x]) (apart_snoc s x HA E)) as (I1 & I2 & I3). split; [exact I1|]. split.
        * intros y Hy. apply I2 in Hy as [H|H]; [apply in_app_or in H as [H|[<-|[]]]; [now left|right; now left]|right; now right].
        * intros i [H|[<-|H]]; apply I3; [left; apply in_or_app; now left|left; apply in_or_app; right; now left|now right].
  Qed.
  Lemma set_spec l : apart eq (set_of numeq l) /\ (forall x, In x (set_of numeq l) -> In x l) /\ (forall i, In i l -> exists d, In d (set_of numeq l) /\ eq d i = true).
  Proof.
    destruct (set_gen l [] I) as (I1 & I2 & I3). split; [exact I1|]. split; [intros x Hx; now destruct (I2 x Hx)|]. intros i Hi. apply I3. now right.
  Qed.
  Lemma apart_filter f l : apart eq l -> apart eq (filter f l).
  Proof.
    induction l as [|a l IH]; [easy|]. intros [A1 A2]. cbn [filter]. destruct (f a); [|now apply IH]. split; [|now apply IH].
    rewrite Forall_forall in *. intros b Hb. apply filter_In in Hb as [Hb _]. now apply A1.
  Qed.
  Lemma one_less r l : apart eq l -> existsb (eq r) l = true -> (length (filter (fun x => negb (eq r x)) l) + 1 = length l)%nat.
  Proof.
    destruct HE as (_ & HS & HT). induction l as [|a l IH]; cbn [existsb filter length]; [discriminate|]. intros [A1 A2] HX. destruct (eq r a) eqn:E; cbn [negb].
    - replace (filter (fun x => negb (eq r x)) l) with l; [lia|]. clear -A1 E HS HT. induction A1 as [|b l Hb HA IH]; [reflexivity|]. cbn [filter].
      replace (eq r b) with false; [cbn [negb]; now rewrite <- IH|]. symmetry. apply not_true_iff_false. intros H. rewrite (HT a r b) in Hb by (assumption || now apply HS). discriminate.
    - cbn [orb] in HX. cbn [length]. rewrite <- (IH A2 HX). lia.
  Qed.
  Lemma extras_set r its : existsb (eq r) (set_of numeq its) = true -> extras eq r its (Z.of_nat (length (set_of numeq its)) - 1).
  Proof.
    intros HX. destruct (set_spec its) as (S1 & S2 & S3). exists (filter (fun x => negb (eq r x)) (set_of numeq its)). split; [pose proof (one_less r _ S1 HX); lia|].
    split; [now apply apart_filter|]. split.
    - intros d Hd. apply filter_In in Hd as [Hd HN]. split; [now apply S2|now apply negb_true_iff].
    - intros i Hi. destruct (S3 i Hi) as (d & Hd & E). destruct (eq r d) eqn:ER; [left; destruct HE as (_ & _ & HT); now apply HT with d|]. right. exists d. split; [|exact E].
      apply filter_In. split; [exact Hd|]. now rewrite ER.
  Qed.
  (** the number of others is determined *)
  Lemma apart_le l : forall m, apart eq l -> (forall x, In x l -> exists y, In y m /\ eq y x = true) -> (length l <= length m)%nat.
  Proof.
    destruct HE as (_ & HS & HT). induction l as [|a l IH]; intros m HA HM; [cbn; lia|]. destruct HA as [A1 A2]. destruct (HM a (or_introl eq_refl)) as (y & Hy & Ey).
    apply in_split in Hy as (m1 & m2 & ->). rewrite app_length. cbn [length]. rewrite Nat.add_succ_r, <- app_length. apply le_n_S. apply IH; [exact A2|].
    intros x Hx. destruct (HM x (or_intror Hx)) as (z & Hz & Ez). exists z. split; [|exact Ez]. apply in_app_or in Hz as [Hz|[->|Hz]]; [apply in_or_app; now left| |apply in_or_app; now right].
    rewrite Forall_forall in A1. specialize (A1 x Hx). rewrite (HT a z x) in A1 by (assumption || now apply HS). discriminate.
  Qed.
  Lemma extras_unique r its k k' : extras eq r its k -> extras eq r its k' -> k = k'.
  Proof.
    destruct HE as (_ & HS & HT). intros (ds & E1 & A1 & M1 & C1) (es & E2 & A2 & M2 & C2).
    assert (G : forall ds es, apart eq ds -> (forall d, In d ds -> In d its /\ eq r d = false) -> (forall i, In i its -> eq r i = true \/ exists d, In d es /\ eq d i = true) -> (length ds <= length es)%nat).
    { intros a b HA HM HC. apply apart_le; [exact HA|]. intros x Hx. destruct (HM x Hx) as [Hi Hn]. destruct (HC x Hi) as [H|H]; [congruence|exact H]. }
    pose proof (G ds es A1 M1 C2). pose proof (G es ds A2 M2 C1). lia.
  Qed.
  Lemma matched r o k : text_file o -> match_items float_of uni uninumeric numeq [r] (fst (split_ext o)) = Ok k ->
    (0 <= k -> has_extras float_of uni uninumeric eq r o k) /\ (k < 0 -> forall k', ~ has_extras float_of uni uninumeric eq r o k').
  Proof.
    intros HT E. unfold match_items in E. destruct (split_items float_of uni uninumeric (fst (split_ext o))) as [its|] eqn:ES; [|discriminate E]. cbn [bind forallb length] in E.
    injection E as <-. rewrite andb_true_r. destruct (existsb (eq r) (set_of numeq its)) eqn:EX; split; intros Hk.
    - split; [exact HT|]. exists its. split; [exact ES|]. split; [|now apply extras_set]. apply existsb_exists in EX as (i & Hi & Ei). exists i. split; [now apply set_spec|exact Ei].
    - apply existsb_exists in EX as (i & Hi & _). destruct (set_of numeq its); [destruct Hi|cbn [length] in Hk; lia].
    - lia.
    - intros k' (_ & its' & ES' & (i & Hi & Ei) & _). rewrite ES in ES'. injection ES' as <-. destruct (set_spec its) as (_ & _ & S3). destruct (S3 i Hi) as (d & Hd & Ed).
      rewrite <- not_true_iff_false in EX. apply EX, existsb_exists. exists d. split; [exact Hd|]. destruct HE as (_ & HS & HT'). apply HT' with i; [exact Ei|now apply HS].
  Qed.
  Lemma has_unique r o k k' : has_extras float_of uni uninumeric eq r o k -> has_extras float_of uni uninumeric eq r o k' -> k = k'.
  Proof.
    intros (_ & its & E & _ & H) (_ & its' & E' & _ & H'). rewrite E in E'. injection E' as <-. now apply (extras_unique r its).
  Qed.
  Notation has := (has_extras float_of uni uninumeric eq).
  Definition splits (o : pystr) : Prop := exists its, split_items float_of uni uninumeric (fst (split_ext o)) = Ok its.
  Lemma loop_spec r : forall options ext best, Forall (fun o => text_file o /\ splits o) options ->
    exists res, best_loop float_of uni uninumeric numeq [r] options ext best = Ok res /\
      ((res = best /\ forall o k, In o options -> has r o k -> k <= 0 \/ ext <= k) \/
       (exists l1 l2 k, options = l1 ++ res :: l2 /\ has r res k /\ 0 < k < ext /\ (forall o k', In o l1 -> has r o k' -> k' <= 0 \/ k < k') /\ (forall o k', In o l2 -> has r o k' -> k' <= 0 \/ k <= k'))).
  Proof.
    induction options as [|o options IH]; intros ext best HF; cbn [best_loop]; [exists best; split; [reflexivity|]; left; split; [reflexivity|easy]|].
    inversion HF as [|? ? [HT [its Hits]] HF']; subst. destruct (match_items float_of uni uninumeric numeq [r] (fst (split_ext o))) as [m|] eqn:EM; [|unfold match_items in EM; rewrite Hits in EM; discriminate EM].
    cbn [bind]. destruct (matched r o m HT EM) as [M1 M2]. destruct ((0 <? m) && (m <? ext)) eqn:EC.
    - apply andb_true_iff in EC as [C1 C2]. apply Z.ltb_lt in C1, C2. destruct (IH m o HF') as (res & E & HR). exists res. split; [exact E|]. right. destruct HR as [[-> HR]|(l1 & l2 & k & -> & H1 & H2 & H3 & H4)].
      + exists [], options, m. split; [reflexivity|]. split; [apply M1; lia|]. split; [lia|]. split; [easy|]. exact HR.
      + exists (o :: l1), l2, k. split; [reflexivity|]. split; [exact H1|]. split; [lia|]. split; [|exact H4]. intros o' k' [<-|Ho'] Hk'; [|now apply (H3 o')].
        rewrite <- (has_unique r o m k' (M1 ltac:(lia)) Hk'). lia.
    - destruct (IH ext best HF') as (res & E & HR). exists res. split; [exact E|]. assert (HO : forall k', has r o k' -> k' <= 0 \/ ext <= k').
      { intros k' Hk'. destruct (Z.lt_ge_cases m 0) as [Hm|Hm]; [destruct (M2 Hm k' Hk')|]. rewrite <- (has_unique r o m k' (M1 Hm) Hk'). apply andb_false_iff in EC as [EC|EC]; apply Z.ltb_ge in EC; lia. }
      destruct HR as [[-> HR]|(l1 & l2 & k & -> & H1 & H2 & H3 & H4)].
      + left. split; [reflexivity|]. intros o' k' [<-|Ho'] Hk'; [now apply HO|now apply (HR o')].
      + right. exists (o :: l1), l2, k. split; [reflexivity|]. split; [exact H1|]. split; [exact H2|]. split; [|exact H4]. intros o' k' [<-|Ho'] Hk'; [|now apply (H3 o')].
        apply HO in Hk'. lia.
  Qed.
  Lemma texts_filter ls : get_all_text_files ls true = filter (fun o => contains_str (lit "txt") (snd (split_ext o))) ls.
  Proof.
    unfold get_all_text_files. induction ls as [|o ls IH]; [reflexivity|]. cbn [flat_map filter]. rewrite IH. destruct (split_ext o) as [fn ext]. cbn [snd]. now destruct (contains_str (lit "txt") ext).
  Qed.
  Lemma filter_cut {A} (f : A -> bool) l : forall a1 x a2, filter f l = a1 ++ x :: a2 -> exists l1 l2, l = l1 ++ x :: l2 /\ filter f l1 = a1 /\ filter f l2 = a2.
  Proof.
    induction l as [|y l IH]; intros a1 x a2 E; cbn [filter] in E; [now destruct a1|]. destruct (f y) eqn:Ey.
    - destruct a1 as [|z a1]; injection E as -> E; [exists [], l; now split|]. destruct (IH a1 x a2 E) as (l1 & l2 & -> & E1 & E2). exists (z :: l1), l2. split; [reflexivity|].
      split; [cbn [filter]; now rewrite Ey, E1|exact E2].
    - destruct (IH a1 x a2 E) as (l1 & l2 & -> & E1 & E2). exists (y :: l1), l2. split; [reflexivity|]. split; [cbn [filter]; now rewrite Ey|exact E2].
  Qed.
  Theorem best_search fs ls s a base r : of_feature s a -> split_item float_of uni uninumeric a = Ok r ->
    fs (path_join2 base (a ++ lit ".txt")) = None -> fs (path_join2 base (a ++ lit ".txt") ++ lit ".gz") = None ->
    Forall (fun o => text_file o -> splits o) ls ->
    exists res, best fs (Some ls) (FOne s) base = (fs, Ok res) /\
      ((res = a ++ lit ".txt" /\ forall o k, In o ls -> has r o k -> k <= 0 \/ 10 * Z.of_nat (length s) <= k) \/
       (exists l1 l2 k, ls = l1 ++ res :: l2 /\ has r res k /\ 0 < k < 10 * Z.of_nat (length s) /\
          (forall o k', In o l1 -> has r o k' -> k' <= 0 \/ k < k') /\ (forall o k', In o l2 -> has r o k' -> k' <= 0 \/ k <= k'))).
  Proof.
    intros HA Hr H0 H1 HF. unfold get_best_file_match. rewrite (feature_best s a HA), (best_items a r (proj1 HA) Hr).
    rewrite exists_not; [|apply best_named, HA|exact H0|exact H1|intros H; rewrite join2_plain in H by apply feature_plain, HA; now apply text_ext in H].
    cbv beta iota zeta. change (set_of numeq [r]) with [r]. pose proof (texts_filter ls) as ET. set (f := fun o => contains_str (lit "txt") (snd (split_ext o))) in *.
    assert (HT : forall o, f o = true <-> text_file o) by (intros o; apply contains_spec).
    assert (HO : Forall (fun o => text_file o /\ splits o) (get_all_text_files ls true)).
    { rewrite ET. rewrite Forall_forall in *. intros o Ho. apply filter_In in Ho as [Ho Hf]. apply HT in Hf. split; [exact Hf|now apply HF]. }
    assert (HI : forall o k l, In o l -> has r o k -> In o (filter f l)) by (intros o k l Ho [Ht _]; apply filter_In; split; [exact Ho|now apply HT]).
    destruct (loop_spec r (get_all_text_files ls true) (Z.of_nat (length s) * 10) (a ++ lit ".txt") HO) as (res & E & HR). exists res.
    split; [revert E; clear; destruct (get_all_text_files ls true); intros E; [cbn [best_loop] in E; now rewrite <- E|now rewrite E]|].
    destruct HR as [[-> HR]|(l1 & l2 & k & EO & H2 & H3 & H4 & H5)].
    - left. split; [reflexivity|]. intros o k Ho Hk. rewrite Z.mul_comm. apply (HR o); [|exact Hk]. rewrite ET. now apply (HI o k).
    - right. rewrite ET in EO. destruct (filter_cut f ls l1 res l2 EO) as (m1 & m2 & EL & E1 & E2). exists m1, m2, k. split; [exact EL|]. split; [exact H2|]. split; [lia|]. subst l1 l2.
      split; intros o k' Ho Hk'; [apply (H4 o)|apply (H5 o)]; try exact Hk'; now apply (HI o k').
  Qed.
End facts.

(** An example: no floats. *)
Definition no_float (s : pystr) : option Z := None.
Definition int_eq (a b : @item_ Z) : bool := match a, b with IInt n, IInt m => n =? m | IFloat n, IFloat m => n =? m | _, _ => false end.
Lemma int_equivalence : equivalence (item_eq int_eq).
Proof.
  assert (G : forall a b, item_eq int_eq a b = true <-> a = b).
  { intros a b. destruct a, b; cbn; try (split; [discriminate|intros E; discriminate E || (now injection E)]); try easy; rewrite ?Z.eqb_eq, ?streq_spec; (split; [now intros ->|now intros [=]]). }
  repeat split; intros *; rewrite ?G; congruence.
Qed.
Definition ex_best ls s := snd (get_best_file_match (fun b => (b, true)) (fun l => Some l) Some no_float (fun _ => None) (fun _ => false) int_eq (fun _ => None) (Some ls) (FOne s) (lit "d")).
Theorem none_left : ex_best [lit "a-a.txt"] (lit "a") = Ok (lit "a.txt").
Proof. vm_compute. reflexivity. Qed.
Theorem many_left : ex_best [lit "a-b-c-d-e-f-g-h-i-j-k.txt"] (lit "a") = Ok (lit "a.txt").
Proof. vm_compute. reflexivity. Qed.
