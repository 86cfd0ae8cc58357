(** Structures whose directory string is not read back. *)
From Verif Require Import Proofs.DictFacts Proofs.ParamsFacts Proofs.StrFacts Proofs.ProtocolFacts Proofs.FileNamesFacts
  Proofs.PathFacts Proofs.StructuresFacts Proofs.StructuresRead Spec.Structures.
Open Scope Z_scope.

Lemma simple_evaluates : evaluates simple_eval.
Proof.
  split; [|repeat split; reflexivity]. intros n. unfold simple_eval. now rewrite int_str.
Qed.

(** The only field is named and positional: the end of the path is taken for the other named fields, so
    that nothing is left. *)
Lemma positional_alone_fails literal_eval uni uninumeric pval_eq deep f inst v t :
  literal_eval [] = None -> ident (f_name f) ->
  f_transient f = false -> f_positional f = true -> f_keyword f = true ->
  get_attr inst (f_name f) = Some v -> value_text v t -> ~ In underscore t ->
  contains (lit "txt") (path_ext (f_name f ++ [dash] ++ t)) = false ->
  get_dir_string [f] inst = Ok (f_name f ++ [dash] ++ t) /\
  params_from_dir_string literal_eval uni uninumeric pval_eq [f] deep (f_name f ++ [dash] ++ t) = Err IndexError.
Proof.
  intros HL ID H1 H2 H3 HV T HU HX. apply field_text_iff in T as T'.
  set (s := f_name f ++ [dash] ++ t) in *.
  assert (Ds : In dash s) by (unfold s; rewrite !in_app_iff; right; left; now left).
  assert (HP : plain s).
  { split; [intros E; rewrite E in Ds; exact Ds|]. split.
    - unfold s. rewrite !in_app_iff. cbn. intros [H|[[H|[]]|H]].
      + revert H. apply ident_no; [exact ID|now left].
      + unfold dash, slash in H. lia.
      + revert H. apply safe_no_slash. now apply value_text_safe in T.
    - split; intros E; rewrite E in Ds; cbn in Ds; unfold dash, dot in Ds; lia. }
  assert (Es : stringify f v false = Ok s) by (unfold stringify; rewrite T', H3; reflexivity).
  split.
  - unfold get_dir_string, get_nonpos_string. cbn [pos_loop nonpos_loop]. rewrite H1, H2. cbn [orb negb].
    rewrite HV, Es. cbn [bind]. reflexivity.
  - unfold params_from_dir_string. rewrite HX.
    assert (En : normpath s = s). { apply (norm_path false [s]); [constructor; [exact HP|constructor]|discriminate]. }
    rewrite En. unfold has_npnk, has_keyword. cbn [filter map existsb]. rewrite H1, H2, H3. cbn [negb andb orb bind map].
    assert (Esp : path_split s = ([], s)) by (apply (split_path false [] s); [constructor|exact HP]).
    rewrite Esp.
    assert (ND : ~ In dash (f_name f)) by (apply ident_no; [exact ID|now right]).
    destruct (split_whole (fun v => Ok (Some v)) (fun vs => Ok (Some (join [dash] vs))) [(f_name f, t)]) as [S1 S2].
    { discriminate. }
    { cbn. constructor; [intros []|constructor]. }
    { constructor; [split; assumption|constructor]. }
    cbn [map fst snd join] in S1, S2. fold s in S1, S2. unfold split_params_flat. rewrite S1, S2.
    assert (EV : value_of (fun v => Ok (Some v)) (fun vs => Ok (Some (join [dash] vs))) (split dash t) = Ok (Some t)).
    { transitivity (@Ok (option pystr) (Some (join [dash] (split dash t)))); [|now rewrite join_split].
      unfold value_of. pose proof (split_ne dash t). destruct (split dash t) as [|x [|y l]]; [contradiction| |]; reflexivity. }
    cbn [mapM snd]. rewrite EV. cbn [bind combine map fst snd rev app dir_loop]. unfold dir_step.
    cbn [d_string]. rewrite H1, H2, H3. cbn [path_split cut_last forallb].
    unfold de_string. cbn [de_string_fuel]. rewrite HL. reflexivity.
Qed.

Lemma plain_piece n t : ident n -> Forall safe t -> plain (n ++ [dash] ++ t).
Proof.
  intros ID T. assert (Ds : In dash (n ++ [dash] ++ t)) by (rewrite !in_app_iff; right; left; now left).
  split; [intros E; rewrite E in Ds; exact Ds|]. split.
  - rewrite !in_app_iff. cbn. intros [H|[[H|[]]|H]].
    + revert H. apply ident_no; [exact ID|now left].
    + unfold dash, slash in H. lia.
    + revert H. now apply safe_no_slash.
  - split; intros E; rewrite E in Ds; cbn in Ds; unfold dash, dot in Ds; lia.
Qed.

(** All fields, two of them, are named and positional: the last one is looked for in the piece of the first. *)
Lemma positional_two_fail literal_eval uni uninumeric pval_eq deep f g inst v w t u :
  ident (f_name f) -> ident (f_name g) -> f_name f <> f_name g ->
  f_transient f = false -> f_positional f = true -> f_keyword f = true ->
  f_transient g = false -> f_positional g = true -> f_keyword g = true -> f_required g = true ->
  get_attr inst (f_name f) = Some v -> value_text v t -> get_attr inst (f_name g) = Some w -> value_text w u ->
  ~ In underscore (f_name f) -> ~ In underscore t -> ~ In underscore u ->
  literal_eval (f_name f) = None -> isnumeric uninumeric (f_name f) = false ->
  literal_eval (f_name f ++ [dash] ++ t) = None -> isnumeric uninumeric (f_name f ++ [dash] ++ t) = false ->
  let d := (f_name f ++ [dash] ++ t) ++ [slash] ++ (f_name g ++ [dash] ++ u) in
  contains (lit "txt") (path_ext d) = false ->
  get_dir_string [f; g] inst = Ok d /\
  exists e, params_from_dir_string literal_eval uni uninumeric pval_eq [f; g] deep d = Err e.
Proof.
  intros ID IDg NE H1 H2 H3 G1 G2 G3 G4 HV T GV U NU NT NUu L1 N1 L2 N2 d HX.
  apply field_text_iff in T as T'. apply field_text_iff in U as U'.
  set (s := f_name f ++ [dash] ++ t) in *. set (r := f_name g ++ [dash] ++ u) in *.
  assert (Ps : plain s) by (apply plain_piece; [exact ID|now apply value_text_safe in T]).
  assert (Pr : plain r) by (apply plain_piece; [exact IDg|now apply value_text_safe in U]).
  assert (Es : stringify f v false = Ok s) by (unfold stringify; rewrite T', H3; reflexivity).
  assert (Er : stringify g w false = Ok r) by (unfold stringify; rewrite U', G3; reflexivity).
  assert (Ej : path_join s [r] = d).
  { apply (join_comps [r] s). constructor; [exact Ps|constructor; [exact Pr|constructor]]. }
  assert (HC : forall c (z : pystr), ~ In c z -> has_char c z = false).
  { intros c z Hz. destruct (has_char c z) eqn:E; [apply has_char_in in E; contradiction|reflexivity]. }
  split.
  - unfold get_dir_string, get_nonpos_string. cbn [pos_loop nonpos_loop]. rewrite H1, H2, G1, G2. cbn [orb negb].
    rewrite HV, Es. cbn [bind]. rewrite GV, Er. cbn [bind]. now f_equal.
  - unfold params_from_dir_string. rewrite HX.
    assert (En : normpath d = d).
    { apply (norm_path false [s; r]); [constructor; [exact Ps|constructor; [exact Pr|constructor]]|discriminate]. }
    rewrite En. unfold has_npnk, has_keyword. cbn [filter map existsb]. rewrite H1, H2, H3, G1, G2, G3. cbn [negb andb orb bind map].
    assert (Esp : path_split d = (s, r)) by (apply (split_path false [s] r); [constructor; [exact Ps|constructor]|exact Pr]).
    rewrite Esp.
    assert (NDg : ~ In dash (f_name g)) by (apply ident_no; [exact IDg|now right]).
    assert (ND : ~ In dash (f_name f)) by (apply ident_no; [exact ID|now right]).
    destruct (split_whole (fun v => Ok (Some v)) (fun vs => Ok (Some (join [dash] vs))) [(f_name g, u)]) as [S1 S2].
    { discriminate. }
    { cbn. constructor; [intros []|constructor]. }
    { constructor; [split; assumption|constructor]. }
    cbn [map fst snd join] in S1, S2. fold r in S1, S2. unfold split_params_flat. rewrite S1, S2.
    assert (EV : value_of (fun v => Ok (Some v)) (fun vs => Ok (Some (join [dash] vs))) (split dash u) = Ok (Some u)).
    { transitivity (@Ok (option pystr) (Some (join [dash] (split dash u)))); [|now rewrite join_split].
      unfold value_of. pose proof (split_ne dash u). destruct (split dash u) as [|x [|y l]]; [contradiction| |]; reflexivity. }
    cbn [mapM snd]. rewrite EV. cbn [bind combine map fst snd rev app dir_loop]. unfold dir_step at 1.
    cbn [d_string]. rewrite G1, G2, G3.
    assert (Ess : path_split s = ([], s)) by (apply (split_path false [] s); [constructor|exact Ps]).
    rewrite Ess.
    assert (Hu : has_char underscore s = false).
    { apply HC. unfold s. rewrite !in_app_iff. cbn. unfold dash, underscore. intros [H|[[H|[]]|H]]; [tauto|lia|tauto]. }
    assert (Hd : has_char dash s = true) by (apply has_char_in; unfold s; rewrite !in_app_iff; right; left; now left).
    assert (Hl : (1 <? Z.of_nat (length s)) = true).
    { apply Z.ltb_lt. unfold s. rewrite !app_length. destruct ID as [X _]. destruct (f_name f); [contradiction|]. cbn [length]. lia. }
    assert (Esd : split dash s = f_name f :: split dash t).
    { unfold s. cbn [app]. rewrite split_app, (split_none dash _ ND). reflexivity. }
    assert (En1 : de_string_fuel literal_eval uni uninumeric 2 (f_name f) = Ok (VStr (f_name f))).
    { cbn [de_string_fuel]. rewrite L1, N1. rewrite (HC underscore _ NU), (HC dash _ ND). reflexivity. }
    unfold de_string. change 3%nat with (S 2). cbn -[de_string_fuel mapM]. 
    assert (ED : (exists l, de_string_fuel literal_eval uni uninumeric 3 s = Ok (VList (VStr (f_name f) :: l))) \/ exists e, de_string_fuel literal_eval uni uninumeric 3 s = Err e).
    { change (de_string_fuel literal_eval uni uninumeric 3 s) with
        (match literal_eval s with Some v => Ok v | None =>
           if isnumeric uninumeric s then match int_of_str uni s with Some n => Ok (VInt n) | None => Err ValueError end
           else if has_char underscore s then do d <- split_params_with (de_string_fuel literal_eval uni uninumeric 2) s; Ok (VDict d)
           else if has_char dash s && (1 <? Z.of_nat (length s)) then do l <- mapM (de_string_fuel literal_eval uni uninumeric 2) (split dash s); Ok (VList l)
           else Ok (VStr s) end).
      rewrite L2, N2, Hu, Hd, Hl, Esd. cbn [andb mapM]. rewrite En1. cbn [bind].
      destruct (mapM (de_string_fuel literal_eval uni uninumeric 2) (split dash t)) as [l|e]; cbn [bind]; eauto. }
    destruct ED as [[l ED]|[e ED]]; rewrite ED; cbn [bind part_at nth_error is_name negb]; [|eauto].
    destruct (streq (f_name f) (f_name g)) eqn:EE; [apply streq_spec in EE; contradiction|].
    rewrite G4. cbn. eauto.
Qed.

Notation read := (params_from_dir_string simple_eval (fun _ => None) (fun _ => false)
  (fun v w => match v, w with VStr s, VStr t => streq s t | VInt m, VInt n => m =? n | _, _ => false end)).
Notation make := (construct simple_eval (fun _ => None) (fun _ => false)
  (fun _ => None) (fun _ => false) (fun _ => None) (fun _ => []) (fun _ => true)).

(** a list of a named positional field comes back with the name in front *)
Lemma positional_list : let fs := [positional (named "l" CAny); named "a" CInt] in
  let inst := [attr "l" (VList [VStr (lit "x"); VStr (lit "y")]); attr "a" (VInt 1)] in
  get_dir_string fs inst = Ok (lit "l-x-y/a-1") /\
  exists params, read fs false (lit "l-x-y/a-1") = Ok params /\
    gd_get streq params (lit "l") = Some (VStr (lit "l-x-y")).
Proof. split; [reflexivity|]. eexists. split; vm_compute; reflexivity. Qed.

(** the name of a named positional field has an underscore *)
Lemma positional_underscore : let fs := [positional (named "step_size" CInt); named "a" CInt] in
  get_dir_string fs [attr "step_size" (VInt 2); attr "a" (VInt 1)] = Ok (lit "step_size-2/a-1") /\
  forall deep, read fs deep (lit "step_size-2/a-1") = Err KeyError.
Proof. split; [reflexivity|]. intros []; vm_compute; reflexivity. Qed.

(** an optional positional field that is not set is looked for in the base directory *)
Lemma optional_positional : let fs := [positional (named "seed" CInt); named "a" CInt] in
  get_dir_string fs [attr "a" (VInt 1)] = Ok (lit "a-1") /\
  (exists params, read fs true (lit "/data/a-1") = Ok params /\ gd_get streq params (lit "base_dir") = Some (VStr (lit "/data"))) /\
  read fs true (lit "a-1") = Err IndexError /\ read fs true (lit "/data/5/a-1") = Err TypeError /\
  exists params, read fs true (lit "/data/seed-3/a-1") = Ok params /\
    gd_get streq params (lit "seed") = Some (VInt 3) /\ gd_get streq params (lit "base_dir") = Some (VStr (lit "/data")).
Proof.
  split; [reflexivity|]. split; [eexists; split; vm_compute; reflexivity|]. split; [vm_compute; reflexivity|].
  split; [vm_compute; reflexivity|]. eexists. repeat split; vm_compute; reflexivity.
Qed.

(** the field without name is optional and not set: another one takes its place *)
Lemma nameless_unset : let fs := [unnamed (named "model" CStr); named "a" CInt] in
  get_dir_string fs [attr "a" (VInt 1)] = Ok (lit "a-1") /\
  exists params, read fs false (lit "a-1") = Ok params /\
    gd_get streq params (lit "model") = Some (VStr (lit "a-1")) /\ gd_get streq params (lit "a") = None.
Proof. split; [reflexivity|]. eexists. repeat split; vm_compute; reflexivity. Qed.

(** a value with an underscore can be another field *)
Lemma underscore_collision : let fs := [named "a" CStr; named "b" CInt] in
  let one := [attr "a" (VStr (lit "x_b-7"))] in
  let two := [attr "a" (VStr (lit "x")); attr "b" (VInt 7)] in
  get_dir_string fs one = Ok (lit "a-x_b-7") /\ get_dir_string fs two = Ok (lit "a-x_b-7") /\
  make fs [] [(lit "a", VStr (lit "x_b-7"))] = Ok one /\
  make fs [] [(lit "a", VStr (lit "x")); (lit "b", VInt 7)] = Ok two.
Proof. repeat split; vm_compute; reflexivity. Qed.

(** a value that ends like a text file is cut off *)
Lemma text_file_cut : let fs := [positional (unnamed (named "dir" CStr)); positional (unnamed (named "file" CStr))] in
  get_dir_string fs [attr "dir" (VStr (lit "logs")); attr "file" (VStr (lit "a.txt"))] = Ok (lit "logs/a.txt") /\
  exists params, read fs false (lit "logs/a.txt") = Ok params /\
    gd_get streq params (lit "file") = Some (VStr (lit "logs")).
Proof. split; [reflexivity|]. eexists. repeat split; vm_compute; reflexivity. Qed.

(** a sentinel is checked when it is the first field, and not otherwise *)
Lemma sentinel_unchecked :
  let c := sentinel (VStr (lit "v1")) (positional (unnamed (named "version" CStr))) in
  let d := positional (unnamed (named "name" CStr)) in
  read [c; d] false (lit "v2/x") = Err ValueError /\
  exists params, read [d; c] false (lit "x/v2") = Ok params /\
    gd_get streq params (lit "version") = Some (VStr (lit "v2")).
Proof. split; [vm_compute; reflexivity|]. eexists. split; vm_compute; reflexivity. Qed.

(** a Boolean that is given as text is True *)
Lemma boolean_text s : s <> [] -> make [named "b" CBool] [] [(lit "b", VStr s)] = Ok [attr "b" (VBool true)].
Proof. destruct s; [contradiction|]. reflexivity. Qed.

(** an optional Listable that is not given holds the class [empty], and shows it *)
Lemma listable_unset : exists inst, make [named "l" CList] [] [] = Ok inst /\
  get_attr inst (lit "l") = Some (VList [the_empty]) /\
  get_dir_string [named "l" CList] inst = Ok (lit "l-classdatasets.empty").
Proof. eexists. repeat split; vm_compute; reflexivity. Qed.

(** literal_eval does arithmetic on the text of a list of integers *)
Lemma integers_subtracted literal_eval uni uninumeric pval_eq other_int is_float to_float to_str other_true m n k :
  0 <= m -> 0 <= n -> literal_eval (str_of_int m ++ [dash] ++ str_of_int n) = Some (VInt k) ->
  contains (lit "txt") (path_ext (lit "x-" ++ str_of_int m ++ [dash] ++ str_of_int n)) = false ->
  get_dir_string [many (named "x" CInt)] [attr "x" (VList [VInt m; VInt n])] =
    Ok (lit "x-" ++ str_of_int m ++ [dash] ++ str_of_int n) /\
  from_dir_string literal_eval uni uninumeric pval_eq other_int is_float to_float to_str other_true
    [many (named "x" CInt)] [] (lit "x-" ++ str_of_int m ++ [dash] ++ str_of_int n) = Ok [attr "x" (VList [VInt k])].
Proof.
  intros Hm Hn HL HX. set (t := str_of_int m ++ [dash] ++ str_of_int n) in *.
  assert (HS : Forall safe t).
  { unfold t. apply Forall_app. split; [apply safe_int|]. apply Forall_app. split; [constructor; [apply safe_dash|constructor]|apply safe_int]. }
  set (f := many (named "x" CInt)). set (s := lit "x-" ++ t) in *.
  assert (Ef : field_text (VList [VInt m; VInt n]) = Ok t).
  { unfold field_text. cbn [clean_string bind]. rewrite !(keep_id _ (safe_int _)).
    change (join [dash] [str_of_int m; str_of_int n]) with t. now rewrite (keep_id _ HS). }
  assert (HU : ~ In underscore t).
  { unfold t. rewrite !in_app_iff. intros [H|[[H|[]]|H]]; [now apply str_of_int_no in H|discriminate|now apply str_of_int_no in H]. }
  assert (HP : plain s).
  { split; [discriminate|]. split; [|split; discriminate]. intros H. cbn in H.
    destruct H as [H|[H|H]]; [unfold slash in H; lia|unfold slash in H; lia|]. revert H. now apply safe_no_slash. }
  assert (Es : stringify f (VList [VInt m; VInt n]) false = Ok s) by (unfold stringify; rewrite Ef; reflexivity).
  split.
  - unfold get_dir_string, get_nonpos_string. cbn [pos_loop nonpos_loop f_transient f_positional f many named orb negb].
    change (get_attr [attr "x" (VList [VInt m; VInt n])] (f_name f)) with (Some (VList [VInt m; VInt n])).
    cbv iota. fold f. rewrite Es. reflexivity.
  - unfold from_dir_string, params_from_dir_string. rewrite HX.
    assert (En : normpath s = s). { apply (norm_path false [s]); [constructor; [exact HP|constructor]|discriminate]. }
    rewrite En. change (has_npnk [f]) with (@Ok (option pystr) None). change (has_keyword [f]) with true. cbn [bind].
    assert (Esp : path_split s = ([], s)) by (apply (split_path false [] s); [constructor|exact HP]).
    rewrite Esp.
    destruct (split_whole (fun v => Ok (Some v)) (fun vs => Ok (Some (join [dash] vs))) [(lit "x", t)]) as [S1 S2].
    { discriminate. }
    { cbn. constructor; [intros []|constructor]. }
    { constructor; [split; [cbn; unfold dash; lia|assumption]|constructor]. }
    cbn [map fst snd join] in S1, S2. change (lit "x" ++ [dash] ++ t) with s in S1, S2.
    unfold split_params_flat. rewrite S1, S2.
    assert (EV : value_of (fun v => Ok (Some v)) (fun vs => Ok (Some (join [dash] vs))) (split dash t) = Ok (Some t)).
    { transitivity (@Ok (option pystr) (Some (join [dash] (split dash t)))); [|now rewrite join_split].
      unfold value_of. pose proof (split_ne dash t). destruct (split dash t) as [|x [|y l]]; [contradiction| |]; reflexivity. }
    cbn [mapM snd]. rewrite EV. cbn [bind combine map fst snd rev app dir_loop].
    assert (ED : de_string literal_eval uni uninumeric t = Ok (VInt k)).
    { unfold de_string. cbn [de_string_fuel]. now rewrite HL. }
    unfold dir_step, dir_eval, gd_lookup, f, many, named.
    cbn [d_string d_keyworded d_params d_npnk f_transient f_positional f_keyword f_name f_class f_constant existsb lit flat_value
      bind andb streq gd_get Z.eqb Pos.eqb Z.of_N N_of_ascii N_of_digits N.add N.mul orb remove_first field_de_string de_value].
    cbn -[de_string t]. rewrite ED. reflexivity.
Qed.

(** ** An instance that is read back *)
From Verif Require Import Proofs.StructuresTop.
Lemma structure_injective_plain literal_eval uninumeric (is_float : pystr -> bool) : evaluates literal_eval ->
  forall fs a b d, class_ok fs ->
  inst_ok literal_eval uninumeric fs a -> all_kept literal_eval uninumeric is_float fs a ->
  inst_ok literal_eval uninumeric fs b -> all_kept literal_eval uninumeric is_float fs b ->
  get_dir_string fs a = Ok d -> get_dir_string fs b = Ok d -> contains (lit "txt") (path_ext d) = false ->
  forall f, In f fs -> shown f ->
    match get_attr a (f_name f), get_attr b (f_name f) with
    | Some v, Some w => same_value v w
    | None, None => True
    | _, _ => False
    end.
Proof.
  intros HE. exact (structure_injective literal_eval (fun _ => None) uninumeric (fun _ _ => false) (fun _ => None) is_float
    (fun _ => None) (fun _ => []) (fun _ => true) HE).
Qed.

Lemma ident_dec n : n <> [] -> forallb (fun c => (97 <=? c) && (c <=? 122) || (65 <=? c) && (c <=? 90) || (48 <=? c) && (c <=? 57) || (c =? 95)) n = true -> ident n.
Proof.
  intros H0 H. split; [exact H0|]. apply Forall_forall. intros c Hc. rewrite forallb_forall in H. specialize (H c Hc).
  rewrite !orb_true_iff, !andb_true_iff, !Z.leb_le, Z.eqb_eq in H. lia.
Qed.
Lemma not_in_dec c (s : pystr) : has_char c s = false -> ~ In c s.
Proof. intros H Hin. apply has_char_in in Hin. congruence. Qed.
Lemma safe_dec s : forallb allowed s = true -> Forall safe s.
Proof. intros H. apply Forall_forall. intros c Hc. rewrite forallb_forall in H. now apply allowed_safe, H. Qed.
Lemma plain_dec c : c <> [] -> has_char slash c = false -> streq c [dot] = false -> streq c [dot; dot] = false -> plain c.
Proof.
  intros H1 H2 H3 H4. split; [exact H1|]. split; [now apply not_in_dec|].
  split; intros ->; discriminate.
Qed.
Lemma value_text_dec v t : field_text v = Ok t -> value_text v t.
Proof. apply field_text_iff. Qed.
Lemma item_word s : forallb allowed s = true -> has_char dash s = false -> has_char underscore s = false ->
  simple_eval s = None -> isnumeric (fun _ => false) s = false -> item simple_eval (fun _ => false) (VStr s).
Proof.
  intros H1 H2 H3 H4 H5. constructor; [|exact H4|exact H5].
  split; [now apply safe_dec|]. split; now apply not_in_dec.
Qed.

Lemma structure_example :
  let fs := [required (positional (unnamed (named "exp" CStr))); positional (named "seed" CInt);
             required (unnamed (named "model" CAny)); named "alpha" CInt; named "names" CList;
             named "opts" CKeyed; named "flag" CBool] in
  let inst := [attr "exp" (VStr (lit "coin_1")); attr "seed" (VInt 5); attr "model" (VStr (lit "PTW"));
               attr "alpha" (VInt (-3)); attr "names" (VList [VStr (lit "a"); VInt 2]);
               attr "opts" (VDict [(lit "depth", VInt 4)])] in
  class_ok fs /\ inst_ok simple_eval (fun _ => false) fs inst /\
  all_kept simple_eval (fun _ => false) (fun _ => false) fs inst /\ evaluates simple_eval /\
  normal_dir (lit "/data/x") /\
  get_dir_string fs inst = Ok (lit "coin_1/seed-5/PTW_alpha--3_names-a-2_opts-depth-4") /\
  contains (lit "txt") (path_ext (lit "coin_1/seed-5/PTW_alpha--3_names-a-2_opts-depth-4")) = false.
Proof.
  intros fs inst. split; [|split; [|split; [|split; [|split; [|split]]]]].
  - constructor; [constructor|..].
    + cbn. repeat constructor; cbn; intuition discriminate.
    + intros f Hf. cbn in Hf. repeat destruct Hf as [<-|Hf]; try (apply ident_dec; [discriminate|reflexivity]). destruct Hf.
    + cbn. intuition discriminate.
    + intros f g Hf Hg (_ & N1 & N2) (_ & M1 & M2). cbn in Hf, Hg.
      repeat destruct Hf as [<-|Hf]; try discriminate; try destruct Hf;
      repeat destruct Hg as [<-|Hg]; try discriminate; try destruct Hg; reflexivity.
    + eexists. split; [left; reflexivity|reflexivity].
    + intros f rest E. injection E as <- _. reflexivity.
  - constructor.
    + intros f Hf _ Hp. cbn in Hf. repeat destruct Hf as [<-|Hf]; try discriminate. destruct Hf.
    + intros f Hf (_ & H1 & H2). cbn in Hf. repeat destruct Hf as [<-|Hf]; try discriminate. destruct Hf.
    + intros f Hf _ Hr. cbn in Hf. repeat destruct Hf as [<-|Hf]; try discriminate. destruct Hf.
    + intros _. exists (named "alpha" CInt), (VInt (-3)), (lit "-3"). repeat split; try reflexivity; [cbn; tauto| |now left].
      apply value_text_dec. reflexivity.
    + intros f v Hf _ Ev. cbn in Hf. repeat destruct Hf as [<-|Hf]; try destruct Hf; try discriminate;
        vm_compute in Ev; injection Ev as <-;
        (eexists; split; [apply value_text_dec; vm_compute; reflexivity|]); unfold text_ok; cbn [f_positional f_keyword positional unnamed required named].
      * apply plain_dec; [discriminate|reflexivity..].
      * repeat split; try reflexivity; now apply not_in_dec.
      * repeat split; try discriminate; now apply not_in_dec.
      * repeat split; try discriminate; now apply not_in_dec.
      * repeat split; try discriminate; now apply not_in_dec.
      * repeat split; try discriminate; now apply not_in_dec.
  - intros f Hf. cbn in Hf. repeat destruct Hf as [<-|Hf]; try destruct Hf; (split; [|intros X; discriminate X]);
      match goal with |- context[get_attr ?a ?n] => let r := eval vm_compute in (get_attr a n) in change (get_attr a n) with r end;
      cbv iota; try (intros _; split; [|split; [reflexivity|split; [intros ok X; discriminate X|split]]]).
    all: try (intros _ X; discriminate X). all: try (intros X; discriminate X).
    all: unfold typed; cbn [f_class positional unnamed required named f_keyword f_positional]; try exact I.
    + eexists. split; [reflexivity|]. apply safe_dec. reflexivity.
    + left. eexists. reflexivity.
    + intros _ _. split; [|discriminate]. constructor. lia.
    + split; [|intros l t X; discriminate X]. constructor. constructor. lia.
    + split; [|intros l t X; discriminate X]. constructor. apply item_word; reflexivity.
    + left. eexists. reflexivity.
    + split; [|intros l t X; discriminate X]. apply rest_negative. lia.
    + eexists. split; [reflexivity|]. split; [discriminate|]. split; [discriminate|]. split; [|discriminate].
      constructor; [apply item_word; reflexivity|]. constructor; [|constructor]. constructor. lia.
    + eexists. split; [reflexivity|]. split; [discriminate|]. split; [cbn; constructor; [intros []|constructor]|].
      intros k x [X|[]]. injection X as <- <-. split; [apply safe_dec; reflexivity|]. split; [now apply not_in_dec|].
      constructor. constructor. lia.
    + split; [reflexivity|discriminate].
  - apply simple_evaluates.
  - exists true, [lit "data"; lit "x"]. split; [reflexivity|]. repeat (constructor; [apply plain_dec; [discriminate|reflexivity..]|]). constructor.
  - vm_compute. reflexivity.
  - vm_compute. reflexivity.
Qed.

(** any directory that starts with the letter is taken for a positional field with a one-letter name *)
Lemma positional_letter : let fs := [positional (named "n" CStr); named "a" CInt] in
  (exists params, read fs true (lit "nx/a-1") = Ok params /\ gd_get streq params (lit "n") = Some (VStr (lit "x"))) /\
  (exists params, read fs true (lit "nine/a-1") = Ok params /\ gd_get streq params (lit "n") = Some (VStr (lit "n-ine"))) /\
  read fs true (lit "n/a-1") = Err IndexError.
Proof. split; [|split]; [eexists; split; vm_compute; reflexivity|eexists; split; vm_compute; reflexivity|vm_compute; reflexivity]. Qed.
