(** Words that are no options of a command line: abbreviations of more than one, and what follows two dashes. *)
From Verif Require Import Proofs.StrFacts Proofs.StructuresMore Spec.ArgsSpec Proofs.DirsFacts Proofs.ArgsFacts.
Open Scope Z_scope.

Section facts.
  Variable unineg : pystr -> bool.
  Variable uni : pystr -> option Z.
  Variable to_float : pval -> option pval.

  Lemma how_many_le n k m : how_many n k = Some m -> (m <= k)%nat.
  Proof.
    unfold how_many. intros H. destruct n as [[]|].
    all: try (destruct (Nat.leb_spec 1 k)); try (match type of H with context [(?a <=? ?b)%nat] => destruct (Nat.leb_spec a b) end); try discriminate H.
    all: apply (f_equal (fun x => match x with Some y => y | None => 0%nat end)) in H; cbv beta iota in H; lia.
  Qed.
  Lemma leading_le ts : (length (leading ts) <= length ts)%nat.
  Proof. induction ts as [|[s t] ts IH]; cbn; [lia|]. destruct t; cbn; lia. Qed.
  Lemma leading_dashes ts d rest : leading (ts ++ (d, IsDashes) :: rest) = leading ts.
  Proof. induction ts as [|[s t] ts IH]; cbn; [reflexivity|]. destruct t; try reflexivity. now rewrite IH. Qed.
  Lemma take_le a e ts st k st' : take_option uni to_float a e ts st = Ok (k, st') -> (k <= length ts)%nat.
  Proof.
    unfold take_option. destruct (a_takes a) as [n|v|]; [|destruct e; [discriminate|]; destruct (store a v st); cbn [bind]; [intros [= <- _]; lia|discriminate]|discriminate].
    destruct e as [e|].
    - destruct (how_many n 1) as [[|[|]]|]; try discriminate. destruct (arg_values _ _ _ _ _); cbn [bind]; [|discriminate]. destruct (store _ _ _); cbn [bind]; [intros [= <- _]; lia|discriminate].
    - destruct (how_many n (length (leading ts))) as [m|] eqn:EH; [|discriminate]. apply how_many_le in EH. pose proof (leading_le ts).
      destruct (arg_values _ _ _ _ _); cbn [bind]; [|discriminate]. destruct (store _ _ _); cbn [bind]; [intros [= <- _]; lia|discriminate].
  Qed.
  Lemma take_dashes a e ts d rest st : take_option uni to_float a e (ts ++ (d, IsDashes) :: rest) st = take_option uni to_float a e ts st.
  Proof. unfold take_option. now rewrite leading_dashes. Qed.
  Lemma consume_args l st : consume uni to_float (map (fun t => (t, IsArg)) l) 0 st = Ok st.
  Proof. induction l as [|s l IH]; [reflexivity|]. exact IH. Qed.
  Lemma consume_dashes ts d l : forall skip st, (skip <= length ts)%nat ->
    consume uni to_float (ts ++ (d, IsDashes) :: map (fun t => (t, IsArg)) l) skip st = consume uni to_float ts skip st.
  Proof.
    induction ts as [|[s t] ts IH]; intros skip st Hs.
    - destruct skip; [|cbn in Hs; lia]. apply consume_args.
    - cbn [app consume]. cbn [length] in Hs. destruct skip as [|k]; [|apply IH; lia]. destruct t as [| |a e|]; try (apply IH; lia).
      rewrite take_dashes. destruct (take_option uni to_float a e ts st) as [[k st']|] eqn:E; [|reflexivity]. cbn [bind]. apply IH. now apply take_le in E.
  Qed.
  Lemma classify_dashes acts args rest : ~ In [dash; dash] args -> classify_all unineg acts (args ++ [dash; dash] :: rest) =
    (do ts <- classify_all unineg acts args; Ok (ts ++ ([dash; dash], IsDashes) :: map (fun t => (t, IsArg)) rest)).
  Proof.
    induction args as [|s args IH]; intros HN; [reflexivity|]. cbn [app classify_all]. destruct (streq s [dash; dash]) eqn:E; [apply streq_spec in E; destruct HN; now left|].
    rewrite IH by (intros H; apply HN; now right). destruct (classify unineg acts s) as [t|]; [|reflexivity]. cbn [bind]. now destruct (classify_all unineg acts args).
  Qed.
  Lemma parse_dashes acts args rest : ~ In [dash; dash] args -> parse_known_args unineg uni to_float acts (args ++ [dash; dash] :: rest) = parse_known_args unineg uni to_float acts args.
  Proof.
    intros HN. unfold parse_known_args. rewrite classify_dashes by exact HN. destruct (classify_all unineg acts args) as [ts|]; [|reflexivity]. cbn [bind]. rewrite consume_dashes by lia. reflexivity.
  Qed.
  Lemma classify_exit acts s e : classify unineg acts s = Err e -> e = SystemExit.
  Proof.
    unfold classify. destruct s as [|c r]; [discriminate|]. destruct (negb (c =? dash)); [discriminate|]. destruct (find _ acts); [discriminate|]. destruct r as [|c' r]; [discriminate|].
    destruct (match cut 61 (c :: c' :: r) with (before, Some after) => match find (has_name before) acts with Some a => Some (a, after) | None => None end | _ => None end) as [[a after]|]; [discriminate|].
    destruct (candidates acts (c :: c' :: r)) as [|[a ex] [|]]; [destruct (negative_number unineg (c :: c' :: r)); [discriminate|]; destruct (has_char 32 (c :: c' :: r)); discriminate|discriminate|now intros [= <-]].
  Qed.
  Lemma classify_raises acts ps t qs : ~ In [dash; dash] ps -> t <> [dash; dash] -> classify unineg acts t = Err SystemExit -> classify_all unineg acts (ps ++ t :: qs) = Err SystemExit.
  Proof.
    intros HN Ht HE. induction ps as [|s ps IH]; cbn [app classify_all].
    - destruct (streq t [dash; dash]) eqn:E; [now apply streq_spec in E|]. now rewrite HE.
    - destruct (streq s [dash; dash]) eqn:E; [apply streq_spec in E; destruct HN; now left|]. destruct (classify unineg acts s) as [tok|e] eqn:EC; [|cbn [bind]; f_equal; now apply classify_exit in EC].
      cbn [bind]. now rewrite IH by (intros H; apply HN; now right).
  Qed.
  Lemma cut_none c s : ~ In c s -> cut c s = (s, None).
  Proof.
    induction s as [|a s IH]; intros H; [reflexivity|]. cbn [cut]. destruct (Z.eqb_spec a c) as [->|N]; [destruct H; now left|]. rewrite IH by (intros X; apply H; now right). reflexivity.
  Qed.
  (** two options that begin like the word *)
  Lemma classify_ambiguous acts r o1 o2 : let t := dash :: dash :: r in ~ In 61 r -> (forall a, In a acts -> ~ In t (a_names a)) ->
    In o1 (flat_map a_names acts) -> In o2 (flat_map a_names acts) -> o1 <> o2 -> is_prefix t o1 = true -> is_prefix t o2 = true ->
    classify unineg acts t = Err SystemExit.
  Proof.
    intros t Hr Hno H1 H2 N P1 P2. assert (HF : forall s, (s = t) -> find (has_name s) acts = None).
    { intros s ->. destruct (find (has_name t) acts) as [a|] eqn:E; [|reflexivity]. apply find_some in E as [Ha E]. unfold has_name in E. apply existsb_exists in E as (x & Hx & E). apply streq_spec in E. subst x. destruct (Hno a Ha Hx). }
    assert (HC : cut 61 t = (t, None)) by (apply cut_none; intros [H|[H|H]]; [discriminate H|discriminate H|contradiction]).
    assert (HL : (2 <= length (candidates acts t))%nat).
    { unfold candidates, t. change (dash =? dash) with true. cbv iota. fold t. rewrite HC. rewrite map_length.
      set (names := flat_map (fun a => map (fun n => (a, n)) (a_names a)) acts). assert (HI : forall o, In o (flat_map a_names acts) -> is_prefix t o = true -> exists a, In (a, o) (filter (fun p => is_prefix t (snd p)) names)).
      { intros o Ho HP. apply in_flat_map in Ho as (a & Ha & Ho). exists a. apply filter_In. split; [|exact HP]. apply in_flat_map. exists a. split; [exact Ha|now apply in_map]. }
      destruct (HI o1 H1 P1) as [a1 I1], (HI o2 H2 P2) as [a2 I2]. destruct (filter (fun p => is_prefix t (snd p)) names) as [|x [|y l]]; [destruct I1| |cbn; lia].
      destruct I1 as [->|[]], I2 as [E|[]]. injection E as _ E. contradiction. }
    unfold classify. change (negb (dash =? dash)) with false. cbv iota. fold t. unfold t at 1. cbv iota. fold t. rewrite (HF t eq_refl), HC.
    destruct (candidates acts t) as [|[? ?] [|? ?]]; cbn in HL; [lia|lia|reflexivity].
  Qed.
End facts.

Section from.
  Variable literal_eval : pystr -> option pval.
  Variable uni : pystr -> option Z.
  Variable uninumeric : pystr -> bool.
  Variable other_int : pystr -> option Z.
  Variable is_float : pystr -> bool.
  Variable to_float : pval -> option pval.
  Variable to_str : pval -> pystr.
  Variable other_true : pystr -> bool.
  Variable unineg : pystr -> bool.
  Notation from_args := (from_args literal_eval uni uninumeric other_int is_float to_float to_str other_true unineg).
  Theorem after_dashes fs inherited args rest : ~ In [dash; dash] args -> from_args fs inherited (args ++ [dash; dash] :: rest) = from_args fs inherited args.
  Proof. intros H. unfold Args.from_args. destruct (get_parser fs); [|reflexivity]. cbn [bind]. now rewrite parse_dashes. Qed.
  Theorem ambiguous fs inherited ps qs n o1 o2 r1 r2 : args_class fs -> ~ In [dash; dash] ps -> n <> [] -> ~ In (flag n) (all_options fs) ->
    In o1 (all_options fs) -> In o2 (all_options fs) -> o1 = flag n ++ r1 -> o2 = flag n ++ r2 -> o1 <> o2 ->
    from_args fs inherited (ps ++ flag n :: qs) = Err SystemExit.
  Proof.
    intros HC HD Hn Hno H1 H2 E1 E2 N. unfold Args.from_args. rewrite (parser_ok fs HC). cbn [bind]. unfold parse_known_args.
    assert (HP : forall o, In o (all_options fs) -> In o (flat_map a_names (parser fs))) by (intros o Ho; change (In o (names (parser fs))); rewrite (parser_names fs HC); now right).
    assert (HE : ~ In 61 n).
    { intros H. destruct (names_form fs HC o1) as [E|(m & E & _ & HI)]; [now apply HP|rewrite E1 in E; discriminate E|]. rewrite E1 in E. injection E as E. rewrite Forall_forall in HI.
      assert (X : In 61 m) by (rewrite <- E; apply in_or_app; now left). apply HI in X. lia. }
    rewrite classify_raises; [reflexivity|exact HD|intros E; injection E as E; contradiction|]. apply classify_ambiguous with (o1 := o1) (o2 := o2); auto.
    - intros a Ha Hf. change (dash :: dash :: n) with (flag n) in Hf. assert (X : In (flag n) (names (parser fs))) by (apply names_in; now exists a). rewrite (parser_names fs HC) in X. destruct X as [X|X]; [discriminate X|contradiction].
    - apply prefix_spec. now exists r1.
    - apply prefix_spec. now exists r2.
  Qed.
End from.

Section more.
  Variable literal_eval : pystr -> option pval.
  Variable uni : pystr -> option Z.
  Variable uninumeric : pystr -> bool.
  Variable pval_eq : pval -> pval -> bool.
  Variable other_int : pystr -> option Z.
  Variable is_float : pystr -> bool.
  Variable to_float : pval -> option pval.
  Variable to_str : pval -> pystr.
  Variable other_true : pystr -> bool.
  Variable unineg : pystr -> bool.
  Notation from_args := (from_args literal_eval uni uninumeric other_int is_float to_float to_str other_true unineg).
  Lemma classify_all_exit acts l e : classify_all unineg acts l = Err e -> e = SystemExit.
  Proof.
    revert e. induction l as [|s l IH]; intros e; cbn [classify_all]; [discriminate|]. destruct (streq s [dash; dash]); [discriminate|].
    destruct (classify unineg acts s) as [t|x] eqn:E; cbn [bind]; [|intros [= <-]; now apply classify_exit in E]. destruct (classify_all unineg acts l); cbn [bind]; [discriminate|]. intros [= <-]. now apply IH.
  Qed.
  Theorem flag_value fs inherited f o t w rest : args_class fs -> In f fs -> f_class f = CBool -> In o (options f) -> stands_for fs t o ->
    from_args fs inherited ((t ++ 61 :: w) :: rest) = Err SystemExit.
  Proof.
    intros HC Hf Hb Ho HS. unfold Args.from_args. rewrite (parser_ok fs HC). cbn [bind]. unfold parse_known_args.
    assert (exists a v, In a (acts f) /\ In o (a_names a) /\ a_takes a = TConst v) as (a & v & Ha & Hn & Ht).
    { unfold acts, actions_of, options in *. rewrite Hb in *. cbn [In] in Ho. destruct Ho as [<-|[<-|[]]].
      - do 2 eexists. split; [left; reflexivity|]. split; [now left|reflexivity].
      - do 2 eexists. split; [right; left; reflexivity|]. split; [now left|reflexivity]. }
    assert (Hp : In a (parser fs)) by (eapply in_parser; eauto).
    assert (Fo : exists n, o = flag n) by (destruct (options_form f o Ho) as (n & -> & _); eauto).
    pose proof (classify_equals fs HC unineg a o t w Hp Hn Fo HS) as E.
    assert (N : streq (t ++ 61 :: w) [dash; dash] = false).
    { apply streq_no. intros Q. destruct (stands_flag fs HC t o) as (m & -> & I); [apply names_in; now exists a|exact HS|exact Fo|]. unfold flag in Q. cbn [app] in Q. injection Q as Q. now destruct m. }
    cbn [classify_all]. rewrite N, E. cbn [bind]. destruct (classify_all unineg (parser fs) rest) as [ts|x] eqn:EC; cbn [bind]; [|f_equal; now apply classify_all_exit in EC].
    cbn [consume]. unfold take_option. rewrite Ht. reflexivity.
  Qed.
  Theorem dict_inherited fs inherited kw inst n v : from_wildcard literal_eval uni uninumeric pval_eq other_int is_float to_float to_str other_true unineg fs inherited (WDict kw) = Ok inst ->
    In n inherited -> gd_get streq kw n = Some v -> get_attr inst n = Some v.
  Proof.
    cbn [from_wildcard]. unfold construct. destruct (set_fields _ _ _ _ _ _ _ _ fs kw []) as [a|]; cbn [bind]; [|discriminate]. intros [= <-] Hn Hv. rewrite StructuresMore.inherited_get, Hv.
    destruct (existsb (streq n) inherited) eqn:E; [reflexivity|]. exfalso. assert (X : existsb (streq n) inherited = true) by (apply existsb_exists; exists n; split; [exact Hn|apply streq_refl]). congruence.
  Qed.
  Theorem boolean_lost : construct literal_eval uni uninumeric other_int is_float to_float to_str other_true [named "b" CBool] [] [] = Ok [] /\
    get_arg_string other_true [named "b" CBool] [] = Err AttributeError.
  Proof. split; vm_compute; reflexivity. Qed.
End more.
