(** Command lines of Structures: the parser, the tokens, the loop. *)
From Coq Require Import Permutation Sorted.
From Verif Require Import Proofs.DictFacts Proofs.StrFacts Proofs.PyFacts Spec.ArgsSpec.
Open Scope Z_scope.

Lemma streq_refl s : streq s s = true. Proof. now apply streq_spec. Qed.
Lemma streq_no s t : s <> t -> streq s t = false.
Proof. intros H. destruct (streq s t) eqn:E; [|reflexivity]. now apply streq_spec in E. Qed.
Lemma has_name_spec s a : has_name s a = true <-> In s (a_names a).
Proof.
  unfold has_name. rewrite existsb_exists. split.
  - intros (x & Hx & E). apply streq_spec in E. now subst.
  - intros H. exists s. split; [exact H|apply streq_refl].
Qed.
Lemma NoDup_app_parts {A} (l m : list A) : NoDup (l ++ m) -> NoDup l /\ NoDup m /\ forall x, In x l -> ~ In x m.
Proof.
  induction l as [|a l IH]; intros H; cbn in H; [split; [constructor|split; [exact H|intros x []]]|].
  inversion H as [|? ? N1 N2]; subst. destruct (IH N2) as (A1 & A2 & A3). split; [|split; [exact A2|]].
  - constructor; [|exact A1]. intros X. apply N1. apply in_or_app. now left.
  - intros x [<-|X]; [|now apply A3]. intros Y. apply N1. apply in_or_app. now right.
Qed.

(** ** The parser *)
Definition names (l : list action) : list pystr := flat_map a_names l.
Lemma names_in l s : In s (names l) <-> exists a, In a l /\ In s (a_names a).
Proof. unfold names. rewrite in_flat_map. reflexivity. Qed.
Lemma names_app l m : names (l ++ m) = names l ++ names m.
Proof. apply flat_map_app. Qed.

Lemma add_actions_ok : forall new l, NoDup (names (l ++ new)) -> add_actions l new = Ok (l ++ new).
Proof.
  induction new as [|a new IH]; intros l H; cbn [add_actions]; [now rewrite app_nil_r|].
  assert (E : existsb (fun s => existsb (has_name s) l) (a_names a) = false).
  { apply not_true_is_false. rewrite existsb_exists. intros (s & Hs & E). apply existsb_exists in E as (b & Hb & E).
    apply has_name_spec in E. rewrite names_app in H. apply NoDup_app_parts in H as (_ & _ & H).
    apply (H s); [apply names_in; now exists b|]. apply names_in. exists a. split; [now left|exact Hs]. }
  rewrite E. rewrite IH; rewrite <- app_assoc; [reflexivity|exact H].
Qed.

Definition acts (f : field) : list action := match actions_of f with Ok l => l | Err _ => [] end.
Definition parser (fs : list field) : list action := help_action :: flat_map acts fs.
Definition fine (f : field) : Prop := plain_class (f_class f) -> f_class f <> CBool -> f_nargs f <> Some (NNum 0).
Lemma class_cases f : f_class f = CBool \/ f_class f = CList \/ f_class f = CKeyed \/ (plain_class (f_class f) /\ f_class f <> CBool).
Proof. unfold plain_class. destruct (f_class f); intuition congruence. Qed.

Definition plain_act (f : field) : action :=
  Action [flag (f_name f)] (f_name f) (TArgs (f_nargs f)) (f_class f) (f_choices f)
    (match f_default f with Some v => v | None => VNone end) (f_required f) None.
Lemma acts_plain f : fine f -> plain_class (f_class f) -> f_class f <> CBool -> actions_of f = Ok [plain_act f].
Proof.
  intros HF P B. specialize (HF P B). destruct P as [P1 P2]. unfold actions_of, plain_act.
  destruct (f_class f); try congruence; destruct (f_nargs f) as [[| | |[|k|k]]|]; try congruence; reflexivity.
Qed.
Lemma acts_ok f : fine f -> actions_of f = Ok (acts f).
Proof.
  intros HF. unfold acts. destruct (class_cases f) as [C|[C|[C|[P B]]]].
  1-3: unfold actions_of; rewrite C; reflexivity. now rewrite (acts_plain f HF P B).
Qed.
Lemma acts_names f : fine f -> names (acts f) = options f.
Proof.
  intros HF. unfold acts, options. destruct (class_cases f) as [C|[C|[C|[P B]]]].
  1-3: unfold actions_of; rewrite C; reflexivity.
  rewrite (acts_plain f HF P B). destruct P as [P1 P2]. destruct (f_class f); try congruence; reflexivity.
Qed.
Lemma acts_dest f a : fine f -> In a (acts f) -> a_dest a = f_name f /\ a_takes a <> THelp /\ exists o, a_names a = [o] /\ In o (options f).
Proof.
  intros HF. unfold acts, options. destruct (class_cases f) as [C|[C|[C|[P B]]]].
  1-3: unfold actions_of; rewrite C; cbn [In]; intuition (subst; cbn; try discriminate; eauto 6).
  rewrite (acts_plain f HF P B). intros [<-|[]]. cbn. split; [reflexivity|]. split; [discriminate|].
  exists (flag (f_name f)). split; [reflexivity|]. destruct P as [P1 P2]. destruct (f_class f); try congruence; now left.
Qed.
Ltac lit_forall := match goal with |- Forall ?P ?l => let l' := eval vm_compute in l in change (Forall P l') end;
  repeat (apply Forall_cons; [cbv beta; lia|]); apply Forall_nil.
Lemma options_form f o : In o (options f) -> exists n, o = flag n /\ (ident (f_name f) -> ident n).
Proof.
  assert (I : forall n m, Forall (fun c => 97 <= c <= 122 \/ 65 <= c <= 90 \/ 48 <= c <= 57 \/ c = 95) m -> ident n -> ident (n ++ m)).
  { intros n m Hm [N F]. split; [destruct n; [contradiction|discriminate]|]. apply Forall_app. now split. }
  assert (I1 : ident (f_name f) -> ident (f_name f ++ lit "_off")) by (apply I; lit_forall).
  assert (I2 : ident (f_name f) -> ident (f_name f ++ lit "s")) by (apply I; lit_forall).
  unfold options. destruct (f_class f); cbn [In]; intuition (subst; eauto).
Qed.

Lemma all_names fs : (forall f, In f fs -> fine f) -> names (flat_map acts fs) = flat_map options fs.
Proof.
  induction fs as [|f fs IH]; intros H; [reflexivity|]. cbn [flat_map]. rewrite names_app, acts_names, IH; [reflexivity| |].
  - intros g Hg. apply H. now right.
  - apply H. now left.
Qed.
Lemma add_fields_ok : forall fs l, (forall f, In f fs -> fine f) -> NoDup (names (l ++ flat_map acts fs)) ->
  add_fields l fs = Ok (l ++ flat_map acts fs).
Proof.
  induction fs as [|f fs IH]; intros l HF H; cbn [add_fields flat_map]; [now rewrite app_nil_r|].
  rewrite acts_ok by (apply HF; now left). cbn [bind]. cbn [flat_map] in H. rewrite app_assoc in H.
  rewrite add_actions_ok by (rewrite names_app in H; now apply NoDup_app_parts in H). cbn [bind].
  rewrite IH; [now rewrite app_assoc| |exact H]. intros g Hg. apply HF. now right.
Qed.

Section class.
  Variable fs : list field.
  Hypothesis HC : args_class fs.
  Lemma fine_all : forall f, In f fs -> fine f.
  Proof. intros f Hf P B. now apply (ac_nargs fs HC). Qed.
  Lemma parser_names : names (parser fs) = lit "-h" :: all_options fs.
  Proof. unfold parser, all_options. cbn [names flat_map]. fold (names (flat_map acts fs)). now rewrite (all_names fs fine_all). Qed.
  Lemma names_form s : In s (names (parser fs)) -> s = lit "-h" \/ exists n, s = flag n /\ ident n.
  Proof.
    rewrite parser_names. intros [<-|[<-|H]]; [now left| |].
    - right. exists (lit "help"). split; [reflexivity|]. split; [discriminate|]. lit_forall.
    - right. apply in_flat_map in H as (f & Hf & H). apply options_form in H as (n & -> & H). exists n. split; [reflexivity|].
      apply H. now apply (ac_ident fs HC).
  Qed.
  Lemma names_nodup : NoDup (names (parser fs)).
  Proof.
    rewrite parser_names. constructor; [|apply (ac_options fs HC)]. intros H.
    assert (H2 : In (lit "-h") (names (parser fs))) by (rewrite parser_names; now left).
    cbn [all_options In] in H. destruct H as [H|H]; [discriminate|]. apply in_flat_map in H as (f & Hf & H).
    apply options_form in H as (n & E & _). discriminate.
  Qed.
  Lemma parser_ok : get_parser fs = Ok (parser fs).
  Proof.
    unfold get_parser. rewrite add_fields_ok; [reflexivity|exact fine_all|exact names_nodup].
  Qed.
  Lemma fields_nodup : NoDup (map f_name fs).
  Proof.
    assert (H : forall l, NoDup (flat_map options l) -> NoDup (map f_name l)); [|apply H; pose proof (ac_options fs HC) as N; now inversion N].
    induction l as [|f l IH]; intros N; cbn in *; [constructor|]. apply NoDup_app_parts in N as (_ & N & D). constructor; [|now apply IH].
    intros X. apply in_map_iff in X as (g & E & Hg). assert (O : forall h, In (flag (f_name h)) (options h)).
    { intros h. unfold options. destruct (f_class h); cbn; auto. }
    apply (D (flag (f_name f))); [apply O|]. apply in_flat_map. exists g. split; [exact Hg|]. rewrite <- E. apply O.
  Qed.

  Lemma in_parser f a : In f fs -> In a (acts f) -> In a (parser fs).
  Proof. intros Hf Ha. right. apply in_flat_map. now exists f. Qed.
End class.

Section actions.
  Variable l : list action.
  Hypothesis HN : NoDup (names l).
  Lemma find_name a s : In a l -> In s (a_names a) -> find (has_name s) l = Some a.
  Proof.
    clear - HN. induction l as [|b l' IH]; intros Ha Hs; [destruct Ha|]. cbn [find]. cbn in HN. fold (names l') in HN.
    apply NoDup_app_parts in HN as (_ & N2 & D). destruct Ha as [->|Ha].
    - now rewrite (proj2 (has_name_spec s a) Hs).
    - assert (E : has_name s b = false).
      { apply not_true_is_false. rewrite has_name_spec. intros X. apply (D s X). apply names_in. now exists a. }
      rewrite E. now apply IH.
  Qed.
  Lemma find_no s : ~ In s (names l) -> find (has_name s) l = None.
  Proof.
    clear. induction l as [|b l' IH]; intros H; [reflexivity|]. cbn [find]. cbn in H. rewrite in_app_iff in H.
    assert (E : has_name s b = false) by (apply not_true_is_false; rewrite has_name_spec; tauto).
    rewrite E. apply IH. unfold names. tauto.
  Qed.
  Lemma same_name a b s : In a l -> In b l -> In s (a_names a) -> In s (a_names b) -> a = b.
  Proof.
    intros Ha Hb Sa Sb. pose proof (find_name a s Ha Sa) as Ea. rewrite (find_name b s Hb Sb) in Ea. now injection Ea.
  Qed.
  Lemma same_action_eq a b : In a l -> In b l -> same_action a b = true -> a = b.
  Proof.
    intros Ha Hb. unfold same_action. destruct (a_names a) as [|s t] eqn:E; [discriminate|]. intros H. apply has_name_spec in H.
    apply (same_name a b s Ha Hb); [rewrite E; now left|exact H].
  Qed.
  Lemma same_action_refl a : a_names a <> [] -> same_action a a = true.
  Proof. intros H. unfold same_action. destruct (a_names a) as [|s t] eqn:E; [contradiction|]. apply has_name_spec. rewrite E. now left. Qed.
End actions.

(** ** Tokens *)
Lemma is_prefix_spec s : forall t, is_prefix s t = true <-> exists r, t = s ++ r.
Proof.
  induction s as [|a s IH]; intros t; cbn [is_prefix].
  - split; [intros _; now exists t|reflexivity].
  - destruct t as [|b t]; [split; [discriminate|intros (r & E); discriminate]|].
    rewrite andb_true_iff, Z.eqb_eq, IH. split.
    + intros (-> & r & ->). now exists r.
    + intros (r & E). cbn in E. injection E as -> ->. split; [reflexivity|now exists r].
Qed.
Lemma cut_free c s : ~ In c s -> cut c s = (s, None).
Proof.
  induction s as [|a s IH]; intros H; [reflexivity|]. cbn [cut]. cbn [In] in H.
  destruct (Z.eqb_spec a c); [tauto|]. rewrite IH by tauto. reflexivity.
Qed.
Lemma cut_at c s r : ~ In c s -> cut c (s ++ c :: r) = (s, Some r).
Proof.
  induction s as [|a s IH]; intros H; cbn [app cut]; [now rewrite Z.eqb_refl|]. cbn [In] in H.
  destruct (Z.eqb_spec a c); [tauto|]. rewrite IH by tauto. reflexivity.
Qed.
Lemma drop_newline_id s : ~ In 10 s -> drop_newline s = s.
Proof.
  intros H. unfold drop_newline. destruct (rev s) as [|c r] eqn:E; [reflexivity|].
  assert (In c s) by (apply in_rev; rewrite E; now left). destruct (Z.eqb_spec c 10); [subst; contradiction|reflexivity].
Qed.
Lemma digits_all s : digits s -> forallb is_digit s = true.
Proof. intros H. apply forallb_forall. unfold digits in H. rewrite Forall_forall in H. intros c Hc. specialize (H c Hc). unfold is_digit. lia. Qed.
Lemma filter_nothing {A} (P : A -> bool) : forall l, (forall y, In y l -> P y = false) -> filter P l = [].
Proof.
  induction l as [|y l IH]; intros U; [reflexivity|]. cbn [filter]. rewrite U by now left. apply IH. intros z Hz. apply U. now right.
Qed.
Lemma filter_one {A} (P : A -> bool) x : forall l, NoDup l -> In x l -> P x = true ->
  (forall y, In y l -> P y = true -> y = x) -> filter P l = [x].
Proof.
  induction l as [|y l IH]; intros N Hx Px U; [destruct Hx|]. inversion N as [|? ? N1 N2]; subst. cbn [filter].
  destruct (P y) eqn:Py.
  - assert (y = x) by (apply U; [now left|exact Py]). subst y. f_equal.
    apply filter_nothing. intros z Hz. apply not_true_is_false. intros Pz. apply N1. rewrite <- (U z (or_intror Hz) Pz). exact Hz.
  - apply IH; [exact N2| |exact Px|].
    + destruct Hx as [->|Hx]; [congruence|exact Hx].
    + intros z Hz. apply U. now right.
Qed.
Lemma ident_free n c : ident n -> In c n -> (48 <= c <= 57 \/ 65 <= c <= 90 \/ c = 95 \/ 97 <= c <= 122).
Proof. intros [_ F] H. rewrite Forall_forall in F. specialize (F c H). lia. Qed.

Definition pairs (l : list action) : list (action * pystr) := flat_map (fun a => map (fun n => (a, n)) (a_names a)) l.
Lemma pairs_in l a n : In (a, n) (pairs l) <-> In a l /\ In n (a_names a).
Proof.
  unfold pairs. rewrite in_flat_map. split.
  - intros (b & Hb & H). apply in_map_iff in H as (m & E & Hm). injection E as -> ->. now split.
  - intros [Ha Hn]. exists a. split; [exact Ha|]. apply in_map_iff. now exists n.
Qed.
Lemma pairs_names l : map snd (pairs l) = names l.
Proof.
  unfold pairs, names. induction l as [|a l IH]; [reflexivity|]. cbn [flat_map]. rewrite map_app, map_map, IH. cbn. now rewrite map_id.
Qed.

Lemma flag_free c n : ident n -> c <> dash -> ~ (48 <= c <= 57 \/ 65 <= c <= 90 \/ c = 95 \/ 97 <= c <= 122) -> ~ In c (flag n).
Proof. intros I D N H. unfold flag in H. cbn [In] in H. destruct H as [H|[H|H]]; [congruence|congruence|]. apply (ident_free _ _ I) in H. tauto. Qed.

Section tokens.
  Variable fs : list field.
  Hypothesis HC : args_class fs.
  Variable unineg : pystr -> bool.
  Notation classify := (classify unineg (parser fs)).

  Lemma classify_name a s : In a (parser fs) -> In s (a_names a) -> classify s = Ok (IsOption a None).
  Proof.
    intros Ha Hs. assert (Hn : In s (names (parser fs))) by (apply names_in; now exists a).
    pose proof (find_name (parser fs) (names_nodup fs HC) a s Ha Hs) as F.
    destruct (names_form fs HC s Hn) as [->|(n & -> & _)]; unfold Args.classify; cbn [lit flag] in *.
    - cbn [lit List.map list_ascii_of_string] in F |- *. change (negb (_ =? dash)) with false. cbn iota. now rewrite F.
    - unfold flag in *. change (negb (dash =? dash)) with false. cbn iota. now rewrite F.
  Qed.

  Lemma equals_no n w : ~ In (flag n ++ 61 :: w) (names (parser fs)).
  Proof.
    intros H. apply (names_form fs HC) in H as [H|(m & E & I)]; [discriminate|].
    assert (X : In 61 m).
    { unfold flag in E. cbn in E. injection E as E. rewrite <- E. apply in_or_app. right. now left. }
    apply (ident_free _ _ I) in X. lia.
  Qed.
  Lemma prefix_h n : is_prefix (flag n) (lit "-h") = false.
  Proof. reflexivity. Qed.
  Lemma prefix_ident n o r : ident o -> flag o = flag n ++ r -> n <> [] -> ident n.
  Proof.
    intros [_ F] E N. unfold flag in E. cbn in E. injection E as E. split; [exact N|]. rewrite E in F. now apply Forall_app in F.
  Qed.

  (** what [candidates] finds for an abbreviation *)
  Lemma candidates_one a o n r t after : In a (parser fs) -> In o (a_names a) -> o = flag n ++ r -> n <> [] ->
    (forall o' rest', In o' (all_options fs) -> o' = flag n ++ rest' -> o' = o) ->
    cut 61 t = (flag n, after) -> (exists t', t = dash :: dash :: t') ->
    candidates (parser fs) t = [(a, after)].
  Proof.
    intros Ha Ho Eo Nn U Ec (t' & Et). unfold candidates. rewrite Et. change (dash =? dash) with true. cbn iota. rewrite <- Et, Ec.
    fold (pairs (parser fs)). erewrite (filter_one _ (a, o)).
    - reflexivity.
    - apply (NoDup_map_inv snd). rewrite pairs_names. apply (names_nodup fs HC).
    - apply pairs_in. now split.
    - cbn [snd]. apply is_prefix_spec. now exists r.
    - intros [b o'] Hb P. apply pairs_in in Hb as [Hb Ho']. cbn [snd] in P. apply is_prefix_spec in P as (r' & E').
      assert (Hn : In o' (names (parser fs))) by (apply names_in; now exists b).
      rewrite (parser_names fs HC) in Hn. destruct Hn as [Hn|Hn]; [subst o'; discriminate|].
      assert (E : o' = o) by now apply (U o' r'). rewrite E in Ho' |- *. f_equal.
      now apply (same_name (parser fs) (names_nodup fs HC) b a o).
  Qed.
  Lemma stands_flag t o : In o (names (parser fs)) -> stands_for fs t o -> (exists n, o = flag n) ->
    exists n, t = flag n /\ ident n.
  Proof.
    intros Ho [->|(n & r & -> & N & E & _)] (m & Em).
    - destruct (names_form fs HC o Ho) as [->|X]; [discriminate|exact X].
    - exists n. split; [reflexivity|]. destruct (names_form fs HC o Ho) as [X|(k & X & I)]; [rewrite Em in X; discriminate|].
      apply (prefix_ident n k r I); [now rewrite <- X|exact N].
  Qed.

  Lemma classify_option a o t : In a (parser fs) -> In o (a_names a) -> (exists n, o = flag n) -> stands_for fs t o ->
    classify t = Ok (IsOption a None).
  Proof.
    intros Ha Ho Fo S. assert (Hn : In o (names (parser fs))) by (apply names_in; now exists a).
    destruct (stands_flag t o Hn S Fo) as (n & Et & I).
    destruct (find (has_name t) (parser fs)) as [b|] eqn:F.
    - apply find_some in F as [Hb F]. apply has_name_spec in F. rewrite (classify_name b t Hb F). do 2 f_equal.
      assert (E : t = o).
      { destruct S as [S|(n' & r & -> & N & E & U)]; [exact S|]. apply (U (flag n') []).
        - assert (X : In (flag n') (names (parser fs))) by (apply names_in; now exists b). rewrite (parser_names fs HC) in X.
          destruct X as [X|X]; [discriminate|exact X].
        - now rewrite app_nil_r. }
      subst t. rewrite E in *. now apply (same_name (parser fs) (names_nodup fs HC) b a o).
    - unfold Args.classify. subst t. unfold flag at 1. change (negb (dash =? dash)) with false. cbn iota. fold (flag n).
      rewrite F. assert (Ec : cut 61 (flag n) = (flag n, None)) by (apply cut_free, flag_free; [exact I|discriminate|lia]).
      rewrite Ec. destruct S as [S|(n' & r & E1 & N & E & U)].
      + exfalso. subst o. rewrite (find_name _ (names_nodup fs HC) a _ Ha Ho) in F. discriminate.
      + injection E1 as <-. erewrite candidates_one; [reflexivity|exact Ha|exact Ho|exact E|exact N|exact U|exact Ec|now exists n].
  Qed.
  Lemma classify_equals a o t w : In a (parser fs) -> In o (a_names a) -> (exists n, o = flag n) -> stands_for fs t o ->
    classify (t ++ 61 :: w) = Ok (IsOption a (Some w)).
  Proof.
    intros Ha Ho Fo S. assert (Hn : In o (names (parser fs))) by (apply names_in; now exists a).
    destruct (stands_flag t o Hn S Fo) as (n & Et & I). subst t.
    assert (F : find (has_name (flag n ++ 61 :: w)) (parser fs) = None) by (apply find_no, equals_no).
    unfold Args.classify. unfold flag at 1. cbn [app]. change (negb (dash =? dash)) with false. cbn iota.
    change (dash :: dash :: n ++ 61 :: w) with (flag n ++ 61 :: w). rewrite F.
    assert (Ec : cut 61 (flag n ++ 61 :: w) = (flag n, Some w)) by (apply cut_at, flag_free; [exact I|discriminate|lia]).
    rewrite Ec. destruct (find (has_name (flag n)) (parser fs)) as [b|] eqn:G.
    - apply find_some in G as [Hb G]. apply has_name_spec in G. do 2 f_equal.
      assert (E : flag n = o).
      { destruct S as [S|(n' & r & E1 & N & E & U)]; [exact S|]. rewrite E1 in *. apply (U (flag n') []).
        - assert (X : In (flag n') (names (parser fs))) by (apply names_in; now exists b). rewrite (parser_names fs HC) in X.
          destruct X as [X|X]; [discriminate|exact X].
        - now rewrite app_nil_r. }
      rewrite E in *. now apply (same_name (parser fs) (names_nodup fs HC) b a o).
    - destruct S as [S|(n' & r & E1 & N & E & U)].
      + exfalso. subst o. rewrite (find_name _ (names_nodup fs HC) a _ Ha Ho) in G. discriminate.
      + injection E1 as <-. erewrite candidates_one; [reflexivity|exact Ha|exact Ho|exact E|exact N|exact U|exact Ec|].
        now exists (n ++ 61 :: w).
  Qed.

  Lemma classify_stranger t : stranger fs t -> classify t = Ok IsUnknown.
  Proof.
    intros (n & -> & I & U).
    assert (U2 : forall o, In o (names (parser fs)) -> is_prefix (flag n) o = false).
    { intros o Ho. apply not_true_is_false. intros P. apply is_prefix_spec in P as (r & E). rewrite (parser_names fs HC) in Ho.
      destruct Ho as [Ho|Ho]; [subst o; discriminate|]. exact (U o r Ho E). }
    assert (F : find (has_name (flag n)) (parser fs) = None).
    { apply find_no. intros H. apply U2 in H. rewrite (proj2 (is_prefix_spec (flag n) (flag n))) in H; [discriminate|]. exists []. now rewrite app_nil_r. }
    unfold Args.classify. unfold flag at 1. change (negb (dash =? dash)) with false. cbn iota. fold (flag n). rewrite F.
    assert (Ec : cut 61 (flag n) = (flag n, None)) by (apply cut_free, flag_free; [exact I|discriminate|lia]). rewrite Ec.
    assert (Cn : candidates (parser fs) (flag n) = []).
    { unfold candidates, flag. change (dash =? dash) with true. cbn iota. fold (flag n). rewrite Ec. fold (pairs (parser fs)).
      rewrite filter_nothing; [reflexivity|]. intros [b o] Hb. apply pairs_in in Hb as [Hb Ho]. apply U2, names_in. now exists b. }
    rewrite Cn.
    assert (Ng : negative_number unineg (flag n) = false).
    { unfold negative_number.
      assert (A : forallb (fun c => (0 <=? c) && (c <? 128)) (flag n) = true).
      { apply forallb_forall. intros c Hc. unfold flag in Hc. cbn [In] in Hc. destruct Hc as [<-|[<-|Hc]]; [reflexivity|reflexivity|].
        apply (ident_free _ _ I) in Hc. lia. }
      rewrite A. rewrite drop_newline_id by (apply flag_free; [exact I|discriminate|lia]). unfold flag.
      change (dash =? dash) with true. cbn [andb]. rewrite cut_free; [reflexivity|].
      intros H. apply (flag_free dot n I ltac:(discriminate)); [unfold dot; lia|]. now right. }
    rewrite Ng. assert (Hs : has_char 32 (flag n) = false).
    { apply not_true_is_false. rewrite has_char_in. apply flag_free; [exact I|discriminate|lia]. }
    now rewrite Hs.
  Qed.

  Lemma negative_arg c r : c <> dash -> c <> 104 -> ~ In 61 (dash :: c :: r) -> negative_number unineg (dash :: c :: r) = true ->
    classify (dash :: c :: r) = Ok IsArg.
  Proof.
    intros C1 C2 E61 Ng.
    assert (NN : forall o, In o (names (parser fs)) -> is_prefix (dash :: c :: r) o = false /\ o <> [dash; c]).
    { intros o Ho. destruct (names_form fs HC o Ho) as [->|(n & -> & _)].
      - split; [|intros E; injection E as E; congruence]. apply not_true_is_false. intros P.
        apply is_prefix_spec in P as (q & E). injection E as E _. congruence.
      - split; [|intros E; injection E as E; congruence]. apply not_true_is_false. intros P.
        apply is_prefix_spec in P as (q & E). injection E as E _. congruence. }
    unfold Args.classify. change (negb (dash =? dash)) with false. cbn iota.
    rewrite find_no; [|intros H; apply NN in H as [H _]; rewrite (proj2 (is_prefix_spec (dash :: c :: r) _)) in H; [discriminate|exists []; now rewrite app_nil_r]].
    rewrite cut_free by exact E61.
    assert (Cn : candidates (parser fs) (dash :: c :: r) = []).
    { unfold candidates. destruct (Z.eqb_spec c dash); [contradiction|]. fold (pairs (parser fs)). cbn [firstn].
      assert (HP : forall p, In p (pairs (parser fs)) -> In (snd p) (names (parser fs))).
      { intros [b o] Hb. apply pairs_in in Hb as [Hb Ho]. apply names_in. now exists b. }
      revert HP. generalize (pairs (parser fs)). intros ps. induction ps as [|p ps IH]; intros HP; [reflexivity|]. cbn [flat_map].
      destruct (NN (snd p)) as [N1 N2]; [apply HP; now left|]. rewrite N1, (streq_no _ _ N2). apply IH. intros q Hq. apply HP. now right. }
    rewrite Cn, Ng. reflexivity.
  Qed.
  Lemma classify_arg s : argument s -> classify s = Ok IsArg /\ s <> [dash; dash].
  Proof.
    intros [H|[->|[(ds & -> & N & D)|(ds & fr & -> & D & N & D2)]]].
    - destruct s as [|c s]; [split; [reflexivity|discriminate]|]. specialize (H c s eq_refl). split.
      + unfold Args.classify. destruct (Z.eqb_spec c dash); [contradiction|reflexivity].
      + intros E. injection E as E _. contradiction.
    - split; [|discriminate]. unfold Args.classify. change (negb (dash =? dash)) with false. cbn iota.
      rewrite find_no; [reflexivity|]. intros H. destruct (names_form fs HC _ H) as [E|(n & E & _)]; discriminate.
    - assert (G : forall c, In c (dash :: ds) -> c = 45 \/ 48 <= c <= 57).
      { intros c [<-|Hc]; [now left|]. unfold digits in D. rewrite Forall_forall in D. specialize (D c Hc). now right. }
      destruct ds as [|c r]; [contradiction|]. pose proof (Forall_inv D) as Dc. cbn beta in Dc.
      split; [|intros E; injection E as E _; unfold dash in E; lia].
      apply negative_arg; [unfold dash; lia|lia|intros X; apply G in X; lia|].
      unfold negative_number.
      assert (A : forallb (fun c => (0 <=? c) && (c <? 128)) (dash :: c :: r) = true).
      { apply forallb_forall. intros x Hx. apply G in Hx. lia. }
      rewrite A, drop_newline_id by (intros X; apply G in X; lia). change (dash =? dash) with true. cbn [andb].
      rewrite cut_free by (intros X; assert (X' : In dot (dash :: c :: r)) by (now right); apply G in X'; unfold dot in X'; lia).
      now apply digits_all.
    - assert (G : forall c, In c (dash :: ds ++ dot :: fr) -> c = 45 \/ c = 46 \/ 48 <= c <= 57).
      { unfold digits in D, D2. rewrite Forall_forall in D, D2. intros c [<-|Hc]; [now left|]. apply in_app_iff in Hc as [Hc|[<-|Hc]];
          [right; right; now apply D|right; now left|right; right; now apply D2]. }
      assert (Ng : negative_number unineg (dash :: ds ++ dot :: fr) = true).
      { unfold negative_number.
        assert (A : forallb (fun c => (0 <=? c) && (c <? 128)) (dash :: ds ++ dot :: fr) = true).
        { apply forallb_forall. intros x Hx. apply G in Hx. lia. }
        rewrite A, drop_newline_id by (intros X; apply G in X; lia). change (dash =? dash) with true. cbn [andb].
        rewrite cut_at.
        - destruct fr; [contradiction|]. rewrite (digits_all _ D), (digits_all _ D2). reflexivity.
        - intros X. unfold digits in D. rewrite Forall_forall in D. specialize (D _ X). unfold dot in D. lia. }
      destruct ds as [|c r].
      + cbn [app] in *. split; [|discriminate]. apply negative_arg; [discriminate|discriminate|intros X; apply G in X; lia|exact Ng].
      + cbn [app] in *. pose proof (Forall_inv D) as Dc. cbn beta in Dc.
        split; [|intros E; injection E as E _; unfold dash in E; lia].
        apply negative_arg; [unfold dash; lia|lia|intros X; apply G in X; lia|exact Ng].
  Qed.
End tokens.
