(** C67: Structures whose directory string is not read back. *)
From Verif Require Import Spec.Structures Proofs.StructuresTop Proofs.StructuresNeg.
Open Scope Z_scope.

(** Whatever its value, a Structure whose only field is named and positional writes a directory string
    that it cannot read. *)
Theorem C67_positional_alone_refuted : forall literal_eval uni uninumeric pval_eq deep f inst v t,
  literal_eval [] = None -> ident (f_name f) ->
  f_transient f = false -> f_positional f = true -> f_keyword f = true ->
  get_attr inst (f_name f) = Some v -> value_text v t -> ~ In underscore t ->
  contains (lit "txt") (path_ext (f_name f ++ [dash] ++ t)) = false ->
  get_dir_string [f] inst = Ok (f_name f ++ [dash] ++ t) /\
  params_from_dir_string literal_eval uni uninumeric pval_eq [f] deep (f_name f ++ [dash] ++ t) = Err IndexError.
Proof. exact positional_alone_fails. Qed.
Print Assumptions C67_positional_alone_refuted.
Example C67_ex : let f := required (positional (named "n" CInt)) in
  simple_eval [] = None /\ get_dir_string [f] [attr "n" (VInt 5)] = Ok (lit "n-5") /\
  contains (lit "txt") (path_ext (lit "n-5")) = false.
Proof. repeat split; vm_compute; reflexivity. Qed.

(** Likewise for two such fields, as in CoinEnv: the last one is looked for in the directory of the first. *)
Theorem C67_positional_two_refuted : forall literal_eval uni uninumeric pval_eq deep f g inst v w t u,
  ident (f_name f) -> ident (f_name g) -> f_name f <> f_name g ->
  f_transient f = false -> f_positional f = true -> f_keyword f = true ->
  f_transient g = false -> f_positional g = true -> f_keyword g = true -> f_required g = true ->
  get_attr inst (f_name f) = Some v -> value_text v t -> get_attr inst (f_name g) = Some w -> value_text w u ->
  ~ In underscore (f_name f) -> ~ In underscore t -> ~ In underscore u ->
  literal_eval (f_name f) = None -> isnumeric uninumeric (f_name f) = false ->
  literal_eval (f_name f ++ [dash] ++ t) = None -> isnumeric uninumeric (f_name f ++ [dash] ++ t) = false ->
  let d := (f_name f ++ [dash] ++ t) ++ [slash] ++ (f_name g ++ [dash] ++ u) in
  contains (lit "txt") (path_ext d) = false ->
  get_dir_string [f; g] inst = Ok d /\
  exists e, params_from_dir_string literal_eval uni uninumeric pval_eq [f; g] deep d = Err e.
Proof. exact positional_two_fail. Qed.
Print Assumptions C67_positional_two_refuted.
Example C67_ex_coin : let f := required (positional (named "probabilities" CList)) in
  let g := required (positional (named "changepoints" CList)) in
  let inst := [attr "probabilities" (VList [VInt 0; VInt 1]); attr "changepoints" (VList [VInt 10; VInt 20])] in
  make [f; g] [] [(lit "probabilities", VList [VInt 0; VInt 1]); (lit "changepoints", VList [VInt 10; VInt 20])] = Ok inst /\
  get_dir_string [f; g] inst = Ok (lit "probabilities-0-1/changepoints-10-20") /\
  read [f; g] true (lit "probabilities-0-1/changepoints-10-20") = Err ValueError.
Proof. repeat split; vm_compute; reflexivity. Qed.

(** A list in a named positional field comes back as a text with the name in front. *)
Theorem C67_positional_list_refuted : let fs := [positional (named "l" CAny); named "a" CInt] in
  let inst := [attr "l" (VList [VStr (lit "x"); VStr (lit "y")]); attr "a" (VInt 1)] in
  get_dir_string fs inst = Ok (lit "l-x-y/a-1") /\
  exists params, read fs false (lit "l-x-y/a-1") = Ok params /\
    gd_get streq params (lit "l") = Some (VStr (lit "l-x-y")).
Proof. exact positional_list. Qed.
Print Assumptions C67_positional_list_refuted.

(** A named positional field whose name has an underscore raises KeyError. *)
Theorem C67_positional_underscore_refuted : let fs := [positional (named "step_size" CInt); named "a" CInt] in
  get_dir_string fs [attr "step_size" (VInt 2); attr "a" (VInt 1)] = Ok (lit "step_size-2/a-1") /\
  forall deep, read fs deep (lit "step_size-2/a-1") = Err KeyError.
Proof. exact positional_underscore. Qed.
Print Assumptions C67_positional_underscore_refuted.

(** Any directory whose name starts with the letter is read as a positional field with a one-letter name:
    nx as n-x; nine as a value with the name in front; and n is an error of another kind. *)
Theorem C67_positional_letter_refuted : let fs := [positional (named "n" CStr); named "a" CInt] in
  (exists params, read fs true (lit "nx/a-1") = Ok params /\ gd_get streq params (lit "n") = Some (VStr (lit "x"))) /\
  (exists params, read fs true (lit "nine/a-1") = Ok params /\ gd_get streq params (lit "n") = Some (VStr (lit "n-ine"))) /\
  read fs true (lit "n/a-1") = Err IndexError.
Proof. exact positional_letter. Qed.
Print Assumptions C67_positional_letter_refuted.

(** An optional named positional field that is not set is looked for in the base directory: it is read
    from there, or the reading fails. *)
Theorem C67_optional_positional_refuted : let fs := [positional (named "seed" CInt); named "a" CInt] in
  get_dir_string fs [attr "a" (VInt 1)] = Ok (lit "a-1") /\
  (exists params, read fs true (lit "/data/a-1") = Ok params /\ gd_get streq params (lit "base_dir") = Some (VStr (lit "/data"))) /\
  read fs true (lit "a-1") = Err IndexError /\ read fs true (lit "/data/5/a-1") = Err TypeError /\
  exists params, read fs true (lit "/data/seed-3/a-1") = Ok params /\
    gd_get streq params (lit "seed") = Some (VInt 3) /\ gd_get streq params (lit "base_dir") = Some (VStr (lit "/data")).
Proof. exact optional_positional. Qed.
Print Assumptions C67_optional_positional_refuted.

(** If the optional field without name is not set, another field is read in its place and lost. *)
Theorem C67_nameless_unset_refuted : let fs := [unnamed (named "model" CStr); named "a" CInt] in
  get_dir_string fs [attr "a" (VInt 1)] = Ok (lit "a-1") /\
  exists params, read fs false (lit "a-1") = Ok params /\
    gd_get streq params (lit "model") = Some (VStr (lit "a-1")) /\ gd_get streq params (lit "a") = None.
Proof. exact nameless_unset. Qed.
Print Assumptions C67_nameless_unset_refuted.

(** Two different instances, made by the constructor, share a directory. *)
Theorem C67_collision_refuted : let fs := [named "a" CStr; named "b" CInt] in
  let one := [attr "a" (VStr (lit "x_b-7"))] in
  let two := [attr "a" (VStr (lit "x")); attr "b" (VInt 7)] in
  get_dir_string fs one = Ok (lit "a-x_b-7") /\ get_dir_string fs two = Ok (lit "a-x_b-7") /\
  make fs [] [(lit "a", VStr (lit "x_b-7"))] = Ok one /\
  make fs [] [(lit "a", VStr (lit "x")); (lit "b", VInt 7)] = Ok two.
Proof. exact underscore_collision. Qed.
Print Assumptions C67_collision_refuted.

(** A last value like a.txt is taken for a file and cut off: the fields shift by one. *)
Theorem C67_text_file_refuted :
  let fs := [positional (unnamed (named "dir" CStr)); positional (unnamed (named "file" CStr))] in
  get_dir_string fs [attr "dir" (VStr (lit "logs")); attr "file" (VStr (lit "a.txt"))] = Ok (lit "logs/a.txt") /\
  exists params, read fs false (lit "logs/a.txt") = Ok params /\
    gd_get streq params (lit "file") = Some (VStr (lit "logs")).
Proof. exact text_file_cut. Qed.
Print Assumptions C67_text_file_refuted.

(** A sentinel is checked only when it is the first field. *)
Theorem C67_sentinel_refuted :
  let c := sentinel (VStr (lit "v1")) (positional (unnamed (named "version" CStr))) in
  let d := positional (unnamed (named "name" CStr)) in
  read [c; d] false (lit "v2/x") = Err ValueError /\
  exists params, read [d; c] false (lit "x/v2") = Ok params /\
    gd_get streq params (lit "version") = Some (VStr (lit "v2")).
Proof. exact sentinel_unchecked. Qed.
Print Assumptions C67_sentinel_refuted.

(** A Boolean field makes True of every text that is not empty, 'False' too. *)
Theorem C67_boolean_text_refuted : forall s, s <> [] ->
  make [named "b" CBool] [] [(lit "b", VStr s)] = Ok [attr "b" (VBool true)].
Proof. exact boolean_text. Qed.
Print Assumptions C67_boolean_text_refuted.

(** An optional Listable that is not given holds a class, and its name is in the directory string. *)
Theorem C67_listable_unset_refuted : exists inst, make [named "l" CList] [] [] = Ok inst /\
  get_attr inst (lit "l") = Some (VList [the_empty]) /\
  get_dir_string [named "l" CList] inst = Ok (lit "l-classdatasets.empty").
Proof. exact listable_unset. Qed.
Print Assumptions C67_listable_unset_refuted.

(** Where literal_eval subtracts, two integers of an nargs field come back as their difference. *)
Theorem C67_integers_refuted : forall literal_eval uni uninumeric pval_eq other_int is_float to_float to_str other_true m n k,
  0 <= m -> 0 <= n -> literal_eval (str_of_int m ++ [dash] ++ str_of_int n) = Some (VInt k) ->
  contains (lit "txt") (path_ext (lit "x-" ++ str_of_int m ++ [dash] ++ str_of_int n)) = false ->
  get_dir_string [many (named "x" CInt)] [attr "x" (VList [VInt m; VInt n])] =
    Ok (lit "x-" ++ str_of_int m ++ [dash] ++ str_of_int n) /\
  from_dir_string literal_eval uni uninumeric pval_eq other_int is_float to_float to_str other_true
    [many (named "x" CInt)] [] (lit "x-" ++ str_of_int m ++ [dash] ++ str_of_int n) = Ok [attr "x" (VList [VInt k])].
Proof. exact integers_subtracted. Qed.
Print Assumptions C67_integers_refuted.
