(** Command lines of Structures: what ends the program, and what is lost. *)
From Coq Require Import Permutation Sorted.
From Verif Require Import Proofs.DictFacts Proofs.StrFacts Proofs.PyFacts Proofs.FileNamesFacts
  Proofs.StructuresTop Proofs.StructuresMore Proofs.ArgsFacts Proofs.ArgsRead Proofs.ArgsTop Spec.ArgsSpec.
Open Scope Z_scope.

Lemma stands_unique fs t o o' : In o (all_options fs) -> In o' (all_options fs) -> stands_for fs t o -> stands_for fs t o' -> o = o'.
Proof.
  intros H H' [->|(n & r & E & _ & Eo & U)] [->|(n' & r' & E' & _ & Eo' & U')].
  - reflexivity.
  - apply (U' o []); [exact H|now rewrite app_nil_r].
  - symmetry. apply (U o' []); [exact H'|now rewrite app_nil_r].
  - symmetry. now apply (U o' r').
Qed.
Lemma option_known fs f o : In f fs -> In o (options f) -> In o (all_options fs).
Proof. intros Hf Ho. right. apply in_flat_map. now exists f. Qed.

Section neg.
  Variable uni : pystr -> option Z.
  Variable to_float : pval -> option pval.
  Variable unineg : pystr -> bool.
  Variable fs : list field.
  Hypothesis HC : args_class fs.
  Notation P := (parser fs).
  Notation part_ok := (part_ok uni to_float).
  Notation parse := (parse_known_args unineg uni to_float P).
  Notation consume := (consume uni to_float).
  Notation unseen := (unseen uni to_float).

  (** after the parts so far *)
  Lemma line_start ps extra ts : (forall p, In p ps -> part_ok fs p) -> NoDup (map fst (values_given ps)) ->
    classify_all unineg P extra = Ok ts -> no_arg_first ts ->
    exists ns seen, parse (command_line ps ++ extra) =
      (do (ns', seen') <- consume ts 0 (ns, seen);
       do ns2 <- unseen P ns' seen';
       if groups_ok P seen' then Ok ns2 else Err SystemExit) /\
      (forall b, In b seen -> In b P /\ In (a_dest b) (map fst (values_given ps))) /\
      (forall p, In p ps -> part_field p <> [] -> exists b, part_action fs p b /\ In b seen).
  Proof.
    intros HP HN HT HF. destruct (tokens_of uni to_float unineg fs HC extra ts HT ps HP) as (tss & F & E).
    destruct (consume_parts uni to_float fs HC ts HF ps tss (defaults P) [] F HN) as (ns & seen & E1 & E2 & E3 & _ & E5); [intros b []|intros b []|].
    exists ns, seen. unfold parse_known_args. rewrite E. cbn [bind]. rewrite E1. split; [reflexivity|]. split; [|exact E5].
    intros b Hb. destruct (E3 b Hb) as [[]|X]. exact X.
  Qed.

  Lemma unseen_exits : forall l ns seen, (exists ns', unseen l ns seen = Ok ns') \/ unseen l ns seen = Err SystemExit.
  Proof.
    induction l as [|a l IH]; intros ns seen; cbn [Args.unseen]; [eauto|].
    destruct (existsb (same_action a) seen); [apply IH|]. destruct (a_required a); [now right|].
    destruct (a_takes a); try apply IH. destruct (a_default a); try apply IH.
    unfold arg_convert. destruct (a_type a); cbn [bind]; try apply IH.
    - destruct (int_of_str uni s); cbn [bind]; [apply IH|now right].
    - destruct (to_float (VStr s)); cbn [bind]; [apply IH|now right].
  Qed.
  Lemma unseen_required : forall l ns seen a, In a l -> a_required a = true -> existsb (same_action a) seen = false ->
    unseen l ns seen = Err SystemExit.
  Proof.
    induction l as [|b l IH]; intros ns seen a Ha R S; [destruct Ha|]. cbn [Args.unseen].
    destruct Ha as [->|Ha]; [now rewrite S, R|].
    destruct (existsb (same_action b) seen); [now apply (IH _ _ a)|]. destruct (a_required b); [reflexivity|].
    destruct (a_takes b); try now apply (IH _ _ a). destruct (a_default b); try now apply (IH _ _ a).
    unfold arg_convert. destruct (a_type b); cbn [bind]; try now apply (IH _ _ a).
    - destruct (int_of_str uni s); cbn [bind]; [now apply (IH _ _ a)|reflexivity].
    - destruct (to_float (VStr s)); cbn [bind]; [now apply (IH _ _ a)|reflexivity].
  Qed.

  Lemma parse_required ps f : (forall p, In p ps -> part_ok fs p) -> NoDup (map fst (values_given ps)) ->
    In f fs -> f_required f = true -> f_class f <> CBool -> ~ In (f_name f) (map fst (values_given ps)) ->
    parse (command_line ps) = Err SystemExit.
  Proof.
    intros HP HN Hf R B G. destruct (line_start ps [] [] HP HN eq_refl I) as (ns & seen & E & S1 & _).
    rewrite app_nil_r in E. rewrite E. cbn [Args.consume bind].
    assert (NS : forall b, In b seen -> a_dest b <> f_name f).
    { intros b Hb Q. apply G. rewrite <- Q. now apply S1. }
    destruct (class_cases f) as [C|[C|[C|[HPl _]]]]; [contradiction| | |].
    3: { assert (EA : acts f = [plain_act f]) by (unfold acts; now rewrite (acts_plain f (fine_all fs HC f Hf) HPl B)).
         assert (Pa : In (plain_act f) P) by (apply (in_parser fs f); [exact Hf|rewrite EA; now left]).
         rewrite (unseen_required P ns seen (plain_act f)); [reflexivity|exact Pa|exact R|].
         apply not_true_is_false. rewrite existsb_exists. intros (b & Hb & Q). destruct (S1 b Hb) as [Pb _].
         apply (same_action_eq P (names_nodup fs HC)) in Q; [|exact Pa|exact Pb]. subst b. now apply (NS _ Hb). }
    all: destruct (unseen_exits P ns seen) as [(ns' & ->)| ->]; [|reflexivity]; cbn [bind].
    all: assert (exists a, In a (acts f) /\ a_group a = Some true) as (a & Ha & Ga)
      by (unfold acts, actions_of; rewrite C; eexists; split; [now left|cbn; now rewrite R]).
    all: assert (GF : groups_ok P seen = false); [|now rewrite GF].
    all: unfold groups_ok; apply not_true_is_false; rewrite forallb_forall; intros Q; specialize (Q a (in_parser fs f a Hf Ha));
      rewrite Ga in Q; apply existsb_exists in Q as (b & Hb & Q); apply streq_spec in Q; apply (NS b Hb); rewrite Q;
      now destruct (acts_dest f a (fine_all fs HC f Hf) Ha) as (-> & _).
  Qed.

  Lemma part_options f t ws v : part_ok fs (Option_words f t ws v) -> exists a o, takes_words uni to_float a ws v /\
    In a (acts f) /\ a_names a = [o] /\ In o (options f) /\ stands_for fs t o.
  Proof.
    intros (Hf & HA & o & S & G). destruct (gives_action uni to_float f o ws v (fine_all fs HC f Hf) G) as (a & Ha & Na & T).
    destruct (acts_dest f a (fine_all fs HC f Hf) Ha) as (_ & _ & o' & No & Oo). rewrite Na in No. injection No as <-. eauto 8.
  Qed.

  (** the tokens of a part alone and of more parts *)
  Lemma more_tokens ps : (forall p, In p ps -> part_ok fs p) -> exists ts, classify_all unineg P (command_line ps) = Ok ts /\ no_arg_first ts.
  Proof.
    intros HP. destruct (tokens_of uni to_float unineg fs HC [] [] eq_refl ps HP) as (tss & F & E). rewrite !app_nil_r in E.
    exists (concat tss). split; [exact E|]. rewrite <- (app_nil_r (concat tss)). now apply (parts_first uni to_float fs ps).
  Qed.

  (** an option that is taken badly *)
  Lemma parse_bad ps qs f t ws o a : (forall p, In p (ps ++ qs) -> part_ok fs p) -> NoDup (map fst (values_given ps)) ->
    In f fs -> In a (acts f) -> a_names a = [o] -> stands_for fs t o -> Forall argument ws ->
    (forall ts ns seen, no_arg_first ts ->
       (forall p, In p ps -> part_field p <> [] -> exists b, part_action fs p b /\ In b seen) ->
       take_option uni to_float a None (words_tokens ws ++ ts) (ns, seen) = Err SystemExit) ->
    parse (command_line ps ++ (t :: ws) ++ command_line qs) = Err SystemExit.
  Proof.
    intros HP HN Hf Ha Na St HA HB.
    destruct (more_tokens qs) as (ts & Ets & Fts); [intros p Hp; apply HP; apply in_or_app; now right|].
    destruct (acts_dest f a (fine_all fs HC f Hf) Ha) as (_ & _ & o' & No & Oo). rewrite Na in No. injection No as <-.
    destruct (options_form f o Oo) as (n & En & _).
    assert (Pa : In a P) by now apply (in_parser fs f). assert (Ho : In o (a_names a)) by (rewrite Na; now left).
    assert (CL : classify_all unineg P ((t :: ws) ++ command_line qs) = Ok (((t, IsOption a None) :: words_tokens ws) ++ ts)).
    { rewrite <- (words_fst ws) at 1. change (t :: map fst (words_tokens ws)) with (map fst ((t, IsOption a None) :: words_tokens ws)).
      apply classify_more; [|exact Ets]. intros s u [Q|Q]; [|now apply (words_classified unineg fs HC ws)].
      injection Q as <- <-. split; [apply (classify_option fs HC unineg a o t Pa Ho); [now exists n|exact St]|].
      destruct (stands_flag fs HC t o) as (m & -> & ID); [apply names_in; now exists a|exact St|now exists n|].
      intros Q. unfold flag in Q. injection Q as ->. now destruct ID as [ID _]. }
    destruct (line_start ps _ _ (fun p Hp => HP p (in_or_app _ _ _ (or_introl Hp))) HN CL I) as (ns & seen & E & S1 & S2).
    rewrite E. cbn [app Args.consume]. rewrite (HB ts ns seen Fts S2). reflexivity.
  Qed.

  Lemma parse_exclusive ps qs f t1 ws1 v1 o1 t2 ws2 v2 o2 :
    (forall p, In p (ps ++ Option_words f t2 ws2 v2 :: qs) -> part_ok fs p) -> NoDup (map fst (values_given ps)) ->
    In (Option_words f t1 ws1 v1) ps -> In o1 (options f) -> In o2 (options f) -> stands_for fs t1 o1 -> stands_for fs t2 o2 -> o1 <> o2 ->
    parse (command_line (ps ++ Option_words f t2 ws2 v2 :: qs)) = Err SystemExit.
  Proof.
    intros HP HN H1 O1 O2 S1 S2 NE.
    assert (P2 : part_ok fs (Option_words f t2 ws2 v2)) by (apply HP, in_or_app; right; now left).
    destruct (part_options f t2 ws2 v2 P2) as (a & o & T & Ha & Na & Oo & So).
    destruct P2 as (Hf & HA & _).
    assert (o = o2) by (apply (stands_unique fs t2); [now apply (option_known fs f)|now apply (option_known fs f)|exact So|exact S2]). subst o.
    unfold command_line. rewrite flat_map_app. cbn [flat_map part_args].
    apply (parse_bad ps qs f t2 ws2 o2 a); [|exact HN|exact Hf|exact Ha|exact Na|exact S2|exact HA|].
    - intros p Hp. apply HP. apply in_app_iff in Hp as [Hp|Hp]; apply in_or_app; [now left|right; now right].
    - intros ts ns seen F PA. destruct (PA _ H1) as (b & (_ & Hb & o & So1 & Nb) & Sb); [discriminate|].
      destruct (acts_dest f b (fine_all fs HC f Hf) Hb) as (Db & _ & o' & No & Ob). rewrite Nb in No. injection No as <-.
      assert (o = o1) by (apply (stands_unique fs t1); [now apply (option_known fs f)|now apply (option_known fs f)|exact So1|exact S1]). subst o.
      destruct (acts_dest f a (fine_all fs HC f Hf) Ha) as (Da & _ & _).
      assert (GR : exists g, a_group a = Some g).
      { revert Ha Hb. unfold acts. destruct (class_cases f) as [C|[C|[C|[HPl B]]]].
        1-3: unfold actions_of; rewrite C; cbn [In]; intuition (subst; cbn; eauto).
        rewrite (acts_plain f (fine_all fs HC f Hf) HPl B). intros [<-|[]] [<-|[]]. exfalso. cbn in Na, Nb. congruence. }
      destruct GR as (g & GR).
      assert (ST : forall v, store a v (ns, seen) = Err SystemExit).
      { intros v. unfold store. rewrite GR. assert (X : existsb (fun b0 => streq (a_dest b0) (a_dest a) && negb (same_action a b0)) seen = true).
        { apply existsb_exists. exists b. split; [exact Sb|]. rewrite Da, Db, streq_refl. cbn [andb]. unfold same_action. rewrite Na.
          unfold has_name. rewrite Nb. cbn [existsb]. rewrite streq_no by congruence. reflexivity. }
        now rewrite X. }
      unfold take_option. unfold takes_words in T. destruct (a_takes a) as [n|c|]; [| |reflexivity].
      + destruct T as [T1 T2]. rewrite leading_words by exact F. rewrite T1, firstn_all, T2 by (now apply (no_dashes unineg fs HC)). cbn [bind]. now rewrite ST.
      + now rewrite ST.
  Qed.

  Lemma unreadable_value f w : plain_class (f_class f) -> unreadable uni to_float f w -> arg_value uni to_float (plain_act f) w = Err SystemExit.
  Proof.
    intros HPl U. unfold arg_value.
    assert (CV : (exists v, arg_convert uni to_float (plain_act f) w = Ok v /\ word_value uni to_float f w v) \/ arg_convert uni to_float (plain_act f) w = Err SystemExit).
    { unfold arg_convert, word_value, plain_act. cbn [a_type]. destruct (f_class f); try (left; eexists; split; reflexivity).
      - destruct (int_of_str uni w) as [n|]; [left; exists (VInt n); split; [reflexivity|now exists n]|now right].
      - destruct (to_float (VStr w)) as [v|]; [left; now exists v|now right]. }
    destruct CV as [(v & -> & W)| ->]; [|reflexivity]. cbn [bind]. unfold plain_act. cbn [a_choices]. specialize (U v W). unfold choice_ok in U.
    destruct (f_choices f) as [ok|]; [|exfalso; apply U; discriminate]. destruct (ok v) eqn:E; [|reflexivity].
    exfalso. apply U. intros ok' [= <-]. exact E.
  Qed.
  Lemma unreadable_list f w : plain_class (f_class f) -> unreadable uni to_float f w -> forall ws, In w ws ->
    mapM (arg_value uni to_float (plain_act f)) ws = Err SystemExit.
  Proof.
    intros HPl U. assert (X : forall x, (exists v, arg_value uni to_float (plain_act f) x = Ok v) \/ arg_value uni to_float (plain_act f) x = Err SystemExit).
    { intros x. unfold arg_value, arg_convert. cbn [plain_act a_type a_choices].
      assert (Y : forall v, (exists v', (match f_choices f with Some ok => if ok v then Ok v else Err SystemExit | None => Ok v end) = Ok v') \/
        (match f_choices f with Some ok => if ok v then Ok v else Err SystemExit | None => Ok v end) = Err SystemExit).
      { intros v. destruct (f_choices f) as [ok|]; [destruct (ok v)|]; eauto. }
      destruct (f_class f); cbn [bind]; try apply Y.
      - destruct (int_of_str uni x); cbn [bind]; [apply Y|now right].
      - destruct (to_float (VStr x)); cbn [bind]; [apply Y|now right]. }
    induction ws as [|x ws IH]; intros H; [destruct H|]. cbn [mapM]. destruct H as [->|H].
    - now rewrite (unreadable_value f w HPl U).
    - destruct (X x) as [(v & ->)| ->]; [|reflexivity]. cbn [bind]. now rewrite (IH H).
  Qed.

  Lemma parse_refused ps qs f t o ws : (forall p, In p (ps ++ qs) -> part_ok fs p) -> NoDup (map fst (values_given ps)) ->
    In f fs -> stands_for fs t o -> Forall argument ws -> refuses uni to_float f o ws ->
    parse (command_line ps ++ (t :: ws) ++ command_line qs) = Err SystemExit.
  Proof.
    intros HP HN Hf St HA R.
    assert (D : ~ In [dash; dash] ws) by (now apply (no_dashes unineg fs HC)).
    assert (PA : plain_class (f_class f) -> f_class f <> CBool -> In (plain_act f) (acts f)).
    { intros HPl B. unfold acts. rewrite (acts_plain f (fine_all fs HC f Hf) HPl B). now left. }
    destruct R as [o C Ho|C|HPl B N|k ws HPl B N L|w ws HPl B N U|w ws HPl B N Hw U|k w ws HPl B N Hw U].
    - assert (exists a n, In a (acts f) /\ a_names a = [o] /\ a_takes a = TArgs n /\ (n = None \/ n = Some NPlus)) as (a & n & Ha & Na & Ta & Hn).
      { unfold options in Ho. rewrite C in Ho. unfold acts, actions_of. rewrite C. destruct Ho as [<-|[<-|[]]].
        - eexists _, None. split; [now left|]. repeat split. now left.
        - eexists _, (Some NPlus). split; [right; now left|]. repeat split. now right. }
      apply (parse_bad ps qs f t [] o a); try assumption. intros ts ns seen F _. unfold take_option. rewrite Ta, leading_words by exact F.
      destruct Hn as [-> | ->]; reflexivity.
    - assert (exists a, In a (acts f) /\ a_names a = [flag (f_name f)] /\ a_takes a = TArgs (Some NPlus)) as (a & Ha & Na & Ta).
      { unfold acts, actions_of. rewrite C. eexists. split; [now left|]. now split. }
      apply (parse_bad ps qs f t [] (flag (f_name f)) a); try assumption. intros ts ns seen F _. unfold take_option. rewrite Ta, leading_words by exact F. reflexivity.
    - apply (parse_bad ps qs f t [] (flag (f_name f)) (plain_act f)); try assumption; [now apply PA|reflexivity|].
      intros ts ns seen F _. unfold take_option. cbn [plain_act a_takes]. rewrite leading_words by exact F. destruct N as [-> | ->]; reflexivity.
    - apply (parse_bad ps qs f t ws (flag (f_name f)) (plain_act f)); try assumption; [now apply PA|reflexivity|].
      intros ts ns seen F _. unfold take_option. cbn [plain_act a_takes]. rewrite leading_words by exact F. rewrite N. cbn [how_many].
      destruct (Nat.leb_spec (Z.to_nat k) (length ws)); [lia|reflexivity].
    - apply (parse_bad ps qs f t (w :: ws) (flag (f_name f)) (plain_act f)); try assumption; [now apply PA|reflexivity|].
      intros ts ns seen F _. unfold take_option. cbn [plain_act a_takes]. rewrite leading_words by exact F.
      assert (D1 : ~ In [dash; dash] [w]) by (intros [Q|[]]; apply D; now left).
      destruct N as [-> | ->]; cbn [how_many length Nat.leb Nat.min firstn]; unfold arg_values; rewrite remove_no by exact D1;
        now rewrite (unreadable_value f w HPl U).
    - apply (parse_bad ps qs f t ws (flag (f_name f)) (plain_act f)); try assumption; [now apply PA|reflexivity|].
      intros ts ns seen F _. unfold take_option. cbn [plain_act a_takes]. rewrite leading_words by exact F.
      assert (HM : how_many (f_nargs f) (length ws) = Some (length ws)).
      { destruct N as [-> | ->]; cbn; [|reflexivity]. destruct ws; [destruct Hw|reflexivity]. }
      rewrite HM, firstn_all. unfold arg_values. rewrite remove_no by exact D.
      destruct N as [-> | ->]; now rewrite (unreadable_list f w HPl U ws Hw).
    - apply (parse_bad ps qs f t ws (flag (f_name f)) (plain_act f)); try assumption; [now apply PA|reflexivity|].
      intros ts ns seen F _. unfold take_option. cbn [plain_act a_takes]. rewrite leading_words by exact F. rewrite N. cbn [how_many].
      destruct (Nat.leb_spec (Z.to_nat k) (length ws)) as [L|L]; [|reflexivity].
      unfold arg_values. rewrite remove_no; [now rewrite (unreadable_list f w HPl U _ Hw)|].
      intros Q. apply D. rewrite <- (firstn_skipn (Z.to_nat k) ws). apply in_or_app. now left.
  Qed.
End neg.

Section outcome.
  Variable literal_eval : pystr -> option pval.
  Variable uni : pystr -> option Z.
  Variable uninumeric : pystr -> bool.
  Variable other_int : pystr -> option Z.
  Variable is_float : pystr -> bool.
  Variable to_float : pval -> option pval.
  Variable to_str : pval -> pystr.
  Variable other_true : pystr -> bool.
  Variable unineg : pystr -> bool.
  Notation construct := (construct literal_eval uni uninumeric other_int is_float to_float to_str other_true).
  Notation field_value := (field_value literal_eval uni uninumeric other_int is_float to_float to_str other_true).
  Notation from_args := (from_args literal_eval uni uninumeric other_int is_float to_float to_str other_true unineg).
  Notation part_ok := (part_ok uni to_float).
  Notation line_ok := (line_ok uni to_float).

  Lemma exits fs inherited args : args_class fs ->
    parse_known_args unineg uni to_float (parser fs) args = Err SystemExit -> from_args fs inherited args = Err SystemExit.
  Proof. intros HC E. unfold Args.from_args. rewrite (parser_ok fs HC). cbn [bind]. now rewrite E. Qed.

  Theorem args_required fs inherited ps f : args_class fs -> (forall p, In p ps -> part_ok fs p) -> NoDup (map fst (values_given ps)) ->
    In f fs -> f_required f = true -> f_class f <> CBool -> ~ In (f_name f) (map fst (values_given ps)) ->
    from_args fs inherited (command_line ps) = Err SystemExit.
  Proof. intros HC HP HN Hf R B G. apply exits; [exact HC|]. now apply (parse_required uni to_float unineg fs HC ps f). Qed.
  Theorem args_exclusive fs inherited ps qs f t1 ws1 v1 o1 t2 ws2 v2 o2 : args_class fs ->
    (forall p, In p (ps ++ Option_words f t2 ws2 v2 :: qs) -> part_ok fs p) -> NoDup (map fst (values_given ps)) ->
    In (Option_words f t1 ws1 v1) ps -> In o1 (options f) -> In o2 (options f) -> stands_for fs t1 o1 -> stands_for fs t2 o2 -> o1 <> o2 ->
    from_args fs inherited (command_line (ps ++ Option_words f t2 ws2 v2 :: qs)) = Err SystemExit.
  Proof. intros HC HP HN H1 O1 O2 S1 S2 NE. apply exits; [exact HC|]. now apply (parse_exclusive uni to_float unineg fs HC ps qs f t1 ws1 v1 o1 t2 ws2 v2 o2). Qed.
  Theorem args_refused fs inherited ps qs f t o ws : args_class fs -> (forall p, In p (ps ++ qs) -> part_ok fs p) ->
    NoDup (map fst (values_given ps)) -> In f fs -> stands_for fs t o -> Forall argument ws -> refuses uni to_float f o ws ->
    from_args fs inherited (command_line ps ++ (t :: ws) ++ command_line qs) = Err SystemExit.
  Proof. intros HC HP HN Hf St HA R. apply exits; [exact HC|]. now apply (parse_refused uni to_float unineg fs HC ps qs f t o ws). Qed.

  (** the value of a field that is not given *)
  Lemma not_given_value fs inherited ps inst f v : args_class fs -> line_ok fs ps -> (forall n, In n inherited -> ~ In n (map f_name fs)) ->
    from_args fs inherited (command_line ps) = Ok inst -> In f fs -> ~ In (f_name f) (map fst (values_given ps)) ->
    not_given uni to_float f v ->
    exists kw o, gd_get streq kw (f_name f) = Some v /\ field_value f kw = Ok o /\ get_attr inst (f_name f) = match o with Some x => x | None => None end.
  Proof.
    intros HC HL HI E Hf G Nv.
    destruct (args_read literal_eval uni uninumeric other_int is_float to_float to_str other_true unineg fs inherited ps HC HL) as (kw & EA & _ & K2 & _).
    rewrite EA in E. unfold Structures.construct in E.
    destruct (set_fields literal_eval uni uninumeric other_int is_float to_float to_str other_true fs kw []) as [i|e] eqn:S; [|discriminate].
    cbn [bind] in E. injection E as <-.
    destruct (set_fields_spec literal_eval uni uninumeric other_int is_float to_float to_str other_true fs kw [] i (fields_nodup fs HC) S) as [H1 _].
    destruct (H1 f Hf) as (o & Eo & Go). exists kw, o. split; [now apply (K2 f v Hf G)|]. split; [exact Eo|].
    unfold get_attr. rewrite inherited_other; [rewrite Go; destruct o as [[x|]|]; reflexivity|].
    intros X. apply (HI _ X). now apply in_map.
  Qed.

  Theorem args_default fs inherited ps inst f d : (forall v s, to_float v = Some s -> exists t, s = VOther t /\ is_float t = true) ->
    args_class fs -> line_ok fs ps -> (forall n, In n inherited -> ~ In n (map f_name fs)) ->
    from_args fs inherited (command_line ps) = Ok inst -> In f fs -> ~ In (f_name f) (map fst (values_given ps)) ->
    plain_class (f_class f) -> f_default f = Some d ->
    exists inst1, construct [f] [] [] = Ok inst1 /\ get_attr inst (f_name f) = get_attr inst1 (f_name f).
  Proof.
    intros FC HC HL HI E Hf G HPl Ed.
    assert (NG : exists v, not_given uni to_float f v /\ (v = d \/ exists s, d = VStr s /\ word_value uni to_float f s v)).
    { destruct (lo_default _ _ fs ps HL f Hf G) as (v & Nv). exists v. split; [exact Nv|].
      destruct HPl as [P1 P2]. unfold not_given in Nv. rewrite Ed in Nv. destruct (f_class f); try contradiction; try (left; exact Nv);
        destruct d; eauto. }
    destruct NG as (v & Nv & Hv). destruct (not_given_value fs inherited ps inst f v HC HL HI E Hf G Nv) as (kw & o & Gk & Fo & Go).
    assert (F0 : field_value f [] = Ok o).
    { rewrite <- Fo. unfold StructuresMore.field_value, Structures.set_self.
      assert (CV : convert_val uni other_int is_float to_float to_str other_true f v = convert_val uni other_int is_float to_float to_str other_true f d /\
        (v = d \/ (listify v = [v] /\ listify d = [d]))).
      { destruct Hv as [->|(s & -> & W)]; [now split; [|left]|]. unfold convert_val, word_value in *. destruct (f_class f); try (subst v; now split; [|left]).
        - destruct W as (n & En & ->). cbn [convert_type]. rewrite En. split; [reflexivity|right; split; reflexivity].
        - destruct (FC _ _ W) as (t & -> & Ft). cbn [convert_type]. rewrite Ft, W. split; [reflexivity|right; split; reflexivity]. }
      destruct CV as [CV CL].
      assert (PS : forall i, plain_set uni other_int is_float to_float to_str other_true f i [] = plain_set uni other_int is_float to_float to_str other_true f i kw).
      { intros i. unfold plain_set. rewrite Gk, Ed. cbn [gd_get]. rewrite CV.
        assert (M : mapM (convert_val uni other_int is_float to_float to_str other_true f) (listify d) = mapM (convert_val uni other_int is_float to_float to_str other_true f) (listify v)).
        { destruct CL as [->|[-> ->]]; [reflexivity|]. cbn [mapM]. now rewrite CV. }
        now rewrite M. }
      destruct HPl as [P1 P2]. destruct (f_class f); try contradiction; now rewrite PS. }
    unfold Structures.construct. cbn [set_fields]. rewrite set_self_value, F0. cbn [bind set_inherited fold_left].
    eexists. split; [reflexivity|]. rewrite Go. destruct o as [x|].
    - rewrite get_attr_set. now rewrite streq_refl.
    - reflexivity.
  Qed.

  Theorem args_lost fs inherited ps inst f : args_class fs -> line_ok fs ps -> (forall n, In n inherited -> ~ In n (map f_name fs)) ->
    from_args fs inherited (command_line ps) = Ok inst -> In f fs -> ~ In (f_name f) (map fst (values_given ps)) ->
    match f_class f with
    | CList => get_attr inst (f_name f) = Some (VList [])
    | CKeyed => get_attr inst (f_name f) = Some VNone
    | _ => True
    end.
  Proof.
    intros HC HL HI E Hf G. destruct (class_cases f) as [C|[C|[C|[[P1 P2] _]]]].
    - now rewrite C.
    - rewrite C. destruct (not_given_value fs inherited ps inst f VNone HC HL HI E Hf G) as (kw & o & Gk & Fo & Go); [unfold not_given; now rewrite C|].
      rewrite Go. unfold StructuresMore.field_value, Structures.set_self in Fo. rewrite C in Fo. unfold list_set_self in Fo. rewrite Gk in Fo.
      cbn in Fo. injection Fo as <-. reflexivity.
    - rewrite C. destruct (not_given_value fs inherited ps inst f VNone HC HL HI E Hf G) as (kw & o & Gk & Fo & Go); [unfold not_given; now rewrite C|].
      rewrite Go. unfold StructuresMore.field_value, Structures.set_self in Fo. rewrite C in Fo. unfold keyed_set_self in Fo. rewrite Gk in Fo.
      cbn in Fo. injection Fo as <-. reflexivity.
    - destruct (f_class f); try exact I; contradiction.
  Qed.

  (** the value of a field that is given *)
  Lemma convert_same f w v x : (forall v s, to_float v = Some s -> exists t, s = VOther t /\ is_float t = true) ->
    plain_class (f_class f) -> f_class f <> CBool ->
    word_value uni to_float f w v -> convert_val uni other_int is_float to_float to_str other_true f v = Ok x -> x = v.
  Proof.
    intros FC [P1 P2] B W E. unfold convert_val in E.
    assert (T : convert_type uni other_int is_float to_float to_str other_true (f_class f) v = Ok v).
    { unfold word_value in W. destruct (f_class f); try contradiction; try (subst v; reflexivity).
      - destruct W as (n & _ & ->). reflexivity.
      - destruct (FC _ _ W) as (t & -> & Ft). cbn [convert_type]. now rewrite Ft. }
    rewrite T in E. cbn [bind] in E. destruct (f_choices f) as [ok|]; [destruct (ok v)|]; congruence.
  Qed.
  Lemma mapM_same {A} (g : A -> result A) : forall l m, mapM g l = Ok m -> (forall x y, In x l -> g x = Ok y -> y = x) -> m = l.
  Proof.
    induction l as [|x l IH]; cbn [mapM]; intros m E H; [congruence|]. destruct (g x) as [y|] eqn:G; [|discriminate]. cbn [bind] in E.
    destruct (mapM g l) as [r|]; [|discriminate]. cbn [bind] in E. injection E as <-. rewrite (H x y (or_introl eq_refl) G).
    f_equal. apply IH; [reflexivity|]. intros; apply H; [now right|assumption].
  Qed.

  Lemma same_field : forall fs g f, NoDup (map f_name fs) -> In g fs -> In f fs -> f_name g = f_name f -> g = f.
  Proof.
    clear. induction fs as [|h fs IH]; intros g f HN Hg Hf E; [destruct Hg|]. cbn [map] in HN. inversion HN as [|? ? N1 N2]; subst.
    destruct Hg as [->|Hg], Hf as [->|Hf]; try reflexivity; [..|now apply IH]; exfalso; apply N1; [rewrite E|rewrite <- E]; now apply in_map.
  Qed.
  Lemma given_gives fs ps f v : args_class fs -> line_ok fs ps -> In f fs -> In (f_name f, v) (values_given ps) ->
    exists o ws, gives uni to_float f o ws v.
  Proof.
    intros HC HL Hf H. unfold values_given in H. apply in_flat_map in H as (p & Hp & H).
    pose proof (lo_parts _ _ fs ps HL p Hp) as PO. destruct p as [g t ws w|g t w0 w|t ws]; cbn in H; try contradiction; destruct H as [E|[]];
      injection E as En ->; cbn in PO.
    - destruct PO as (Hg & _ & o & _ & G). assert (g = f) as ->; [|eauto]. exact (same_field fs g f (fields_nodup fs HC) Hg Hf En).
    - destruct PO as (Hg & _ & o & _ & G). assert (g = f) as ->; [|eauto]. exact (same_field fs g f (fields_nodup fs HC) Hg Hf En).
  Qed.

  Theorem args_sets fs inherited ps inst f v : (forall v s, to_float v = Some s -> exists t, s = VOther t /\ is_float t = true) ->
    args_class fs -> line_ok fs ps -> (forall n, In n inherited -> ~ In n (map f_name fs)) ->
    from_args fs inherited (command_line ps) = Ok inst -> In f fs -> In (f_name f, v) (values_given ps) ->
    plain_class (f_class f) -> (f_class f = CBool -> f_nargs f = None) -> v <> VNone ->
    get_attr inst (f_name f) = Some (attribute f v).
  Proof.
    intros FC HC HL HI E Hf G HPl HB NN. destruct (given_gives fs ps f v HC HL Hf G) as (o' & ws & GV).
    destruct (args_read literal_eval uni uninumeric other_int is_float to_float to_str other_true unineg fs inherited ps HC HL) as (kw & EA & K1 & _).
    specialize (K1 _ _ G). rewrite EA in E. unfold Structures.construct in E.
    destruct (set_fields literal_eval uni uninumeric other_int is_float to_float to_str other_true fs kw []) as [i|e] eqn:S; [|discriminate].
    cbn [bind] in E. injection E as <-.
    destruct (set_fields_spec literal_eval uni uninumeric other_int is_float to_float to_str other_true fs kw [] i (fields_nodup fs HC) S) as [H1 _].
    destruct (H1 f Hf) as (o & Eo & Go).
    unfold get_attr. rewrite inherited_other; [|intros X; apply (HI _ X); now apply in_map]. rewrite Go.
    assert (o = Some (Some (attribute f v))) as ->; [|reflexivity].
    pose proof HPl as [P1 P2]. pose proof (ac_nargs fs HC f Hf HPl) as N0.
    unfold StructuresMore.field_value in Eo.
    assert (ES : forall i, Structures.set_self literal_eval uni uninumeric other_int is_float to_float to_str other_true f i kw = plain_set uni other_int is_float to_float to_str other_true f i kw)
      by (intros; unfold Structures.set_self; destruct (f_class f); congruence).
    rewrite ES in Eo. unfold plain_set in Eo. rewrite K1 in Eo.
    match type of Eo with (do a <- (do val <- ?X; _); _) = _ => assert (EX : forall y, X = Ok y -> y = attribute f v) end.
    { intros y Y. unfold nargs_of in Y. unfold attribute. inversion GV; subst; try contradiction.
      - rewrite (HB H) in Y |- *. unfold convert_val in Y. rewrite H in Y. cbn in Y. destruct (f_choices f) as [ok|]; [destruct (ok _)|]; congruence.
      - rewrite (HB H) in Y |- *. unfold convert_val in Y. rewrite H in Y. cbn in Y. destruct (f_choices f) as [ok|]; [destruct (ok _)|]; congruence.
      - rewrite H2 in Y |- *. now apply (convert_same f w v y).
      - rewrite H2 in Y |- *. assert (L : listify v = [v] /\ match v with VList l => VList l | _ => VList [v] end = VList [v]).
        { unfold word_value in H3. destruct (f_class f); try contradiction; try (subst v; split; reflexivity).
          - destruct H3 as (n & _ & ->). split; reflexivity.
          - destruct (FC _ _ H3) as (t & -> & _). split; reflexivity. }
        destruct L as [L1 L2]. rewrite L2. rewrite L1 in Y. cbn [mapM] in Y.
        destruct (convert_val uni other_int is_float to_float to_str other_true f v) as [x|] eqn:C; [|discriminate]. cbn [bind] in Y.
        rewrite (convert_same f w v x FC HPl H0 H3 C) in Y. congruence.
      - rewrite H2 in Y |- *. cbn [listify] in Y.
        assert (Y' : exists l, mapM (convert_val uni other_int is_float to_float to_str other_true f) vs = Ok l /\
           match n with NNum k => if Z.of_nat (length l) <? k then Err TypeError else Ok (VList (slice_to l k)) | _ => Ok (VList l) end = Ok y).
        { destruct n as [| | |[|k|k]]; try (now exfalso; apply (N0 H0)); 
          (destruct (mapM (convert_val uni other_int is_float to_float to_str other_true f) vs) as [l|]; [|discriminate]; cbn [bind] in Y; now exists l). }
        destruct Y' as (l & Em & Y'). assert (L : l = vs).
        { apply (mapM_same _ _ _ Em). intros x z Hx Cx. clear - Hx Cx H4 FC HPl H0. induction H4 as [|a b la lb [Wa _] HF IH]; [destruct Hx|].
          destruct Hx as [<-|Hx]; [|now apply IH]. now apply (convert_same f a b z). }
        subst l. destruct n as [| | |k]; try contradiction; try congruence.
        assert (Z.of_nat (length vs) = k) by (rewrite <- H3; clear - H4; induction H4; cbn [length]; lia).
        rewrite (proj2 (Z.ltb_ge _ _)) in Y' by lia. injection Y' as <-. f_equal. unfold slice_to. apply firstn_all2. unfold slice_start.
        destruct (k <? 0) eqn:K; [apply Z.ltb_lt in K|apply Z.ltb_ge in K]; lia. }
    match type of Eo with (do a <- (do val <- ?X; _); _) = _ => destruct X as [y|] eqn:EY; [|discriminate] end.
    cbn [bind gd_set] in Eo. injection Eo as <-. now rewrite (EX y eq_refl).
  Qed.
End outcome.
