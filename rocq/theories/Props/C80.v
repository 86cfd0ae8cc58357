(** C80: a Structure with other Structures in it is rebuilt from its directory string. *)
From Verif Require Import Model.Nested Spec.NestedSpec Proofs.NestedTop Proofs.NestedNeg.
Open Scope Z_scope.

(** On any depth of nesting: the directory string can be read, under any directory, and gives back the fields of all
    levels, the directory, and the same directory string. *)
Theorem C80_round_trip_partial : forall literal_eval uni uninumeric pval_eq other_int is_float to_float to_str other_true unineg,
  evaluates literal_eval -> forall members inherited a base,
  nested_ok literal_eval uninumeric is_float members a -> NoDup (all_names members) ->
  ~ In (lit "base_dir") (all_names members) -> (forall n, In n inherited -> ~ In n (map member_name members)) ->
  normal_dir base ->
  exists d b, nested_string members a = Ok d /\
    nested_from_dir_string literal_eval uni uninumeric pval_eq other_int is_float to_float to_str other_true unineg
      members inherited (path_join2 base d) = Ok b /\
    restored base members inherited a b /\ nested_string members b = Ok d.
Proof. exact nested_round. Qed.
Print Assumptions C80_round_trip_partial.

Example C80_round_trip_ex : nested_ok simple_eval (fun _ => false) (fun _ => false) exp_class my_exp /\
  NoDup (all_names exp_class) /\ ~ In (lit "base_dir") (all_names exp_class) /\
  (forall n, In n [lit "base_dir"] -> ~ In n (map member_name exp_class)) /\ normal_dir (lit "/data/x") /\ evaluates simple_eval /\
  nested_string exp_class my_exp = Ok (lit "coin_1/tree/book1/n-3/depth-48/seed--7").
Proof. exact two_levels. Qed.

(** No directory string is read by a class with a Struct that has no constructor. *)
Theorem C80_no_constructor_refuted : forall literal_eval uni uninumeric pval_eq deep n req k p members d params,
  In (MStruct n req k p false None) members ->
  nested_from_dir literal_eval uni uninumeric pval_eq members deep d <> Ok params.
Proof. exact unmade_never_read. Qed.
Print Assumptions C80_no_constructor_refuted.

(** As in test_structures.py: without children, the parent is made and shows nothing, but is not read. *)
Example C80_no_constructor_ex :
  let members := [MStruct (lit "child") false true false false None; MStruct (lit "problem_child") false true false false None] in
  nmake members [] [] = Ok [] /\ nested_string members [] = Ok [] /\ nback members [] [] = Err AttributeError.
Proof. repeat apply conj; vm_compute; reflexivity. Qed.

(** A Struct declared with the default flags leaves its name in the directory. *)
Theorem C80_default_flags_refuted : forall literal_eval uni uninumeric pval_eq is_float n req members inherited b base,
  evaluates literal_eval ->
  nested_ok literal_eval uninumeric is_float members b -> NoDup (all_names members) -> ~ In (lit "base_dir") (all_names members) ->
  ident (lit n) -> normal_dir base ->
  exists d params, nested_string [declared n req members inherited] [holds n b] = Ok d /\
    nested_from_dir literal_eval uni uninumeric pval_eq [declared n req members inherited] true (path_join2 base d) = Ok params /\
    gd_get streq params (lit "base_dir") = Some (VStr (path_join2 base (lit n))).
Proof. exact name_left. Qed.
Print Assumptions C80_default_flags_refuted.

Example C80_default_flags_ex : nested_ok simple_eval (fun _ => false) (fun _ => false) exp_class my_exp /\
  NoDup (all_names exp_class) /\ ~ In (lit "base_dir") (all_names exp_class) /\ ident (lit "setup").
Proof. split; [|split; [|split]]; [apply two_levels..|]. split; [discriminate|]. repeat constructor; cbn; lia. Qed.

(** A positional field in front of it is then read from the name. *)
Theorem C80_default_flags_field_refuted :
  let members := [just (required (positional (unnamed (named "exp" CStr))));
                  declared "env" true [just (named "alpha" CInt)] [lit "base_dir"]] in
  let a := [value "exp" (VStr (lit "coin")); holds "env" [value "alpha" (VInt 1)]] in
  nested_string members a = Ok (lit "coin/env/alpha-1") /\
  exists b, nback members [lit "base_dir"] (lit "/data/coin/env/alpha-1") = Ok b /\
    get_value b (lit "exp") = Some (VStr (lit "env")) /\ get_value b (lit "base_dir") = Some (VStr (lit "/data/coin")).
Proof. exact name_taken. Qed.
Print Assumptions C80_default_flags_field_refuted.

(** A Struct with keyword=False that is not positional is taken for the nameless field: its fields and the named fields are lost. *)
Theorem C80_nameless_struct_refuted :
  let members := [MStruct (lit "env") true false false false (Some ([just (named "alpha" CInt)], [lit "base_dir"]));
                  just (named "seed" CInt)] in
  nested_string members [holds "env" [value "alpha" (VInt 1)]; value "seed" (VInt 5)] = Ok (lit "alpha-1/seed-5") /\
  exists b e, nback members [lit "base_dir"] (lit "/data/alpha-1/seed-5") = Ok b /\ gd_get streq b (lit "env") = Some (SInst e) /\
    get_value e (lit "alpha") = None /\ get_value b (lit "seed") = None.
Proof. exact struct_nameless. Qed.
Print Assumptions C80_nameless_struct_refuted.

(** A name used on two levels: the outer field gets the inner value, the inner one none. *)
Theorem C80_same_name_refuted :
  let members := [just (named "alpha" CInt); meant "env" true [just (named "alpha" CInt)] [lit "base_dir"]] in
  nested_string members [value "alpha" (VInt 5); holds "env" [value "alpha" (VInt 1)]] = Ok (lit "alpha-1/alpha-5") /\
  exists b e, nback members [lit "base_dir"] (lit "/data/alpha-1/alpha-5") = Ok b /\ gd_get streq b (lit "env") = Some (SInst e) /\
    get_value b (lit "alpha") = Some (VInt 1) /\ get_value e (lit "alpha") = None.
Proof. exact same_name. Qed.
Print Assumptions C80_same_name_refuted.

(** Two Structs of one class both come back with the values of the first. *)
Theorem C80_same_class_refuted :
  let members := [meant "train" true [just (named "alpha" CInt)] [lit "base_dir"];
                  meant "test" true [just (named "alpha" CInt)] [lit "base_dir"]] in
  nested_string members [holds "train" [value "alpha" (VInt 1)]; holds "test" [value "alpha" (VInt 5)]] = Ok (lit "alpha-1/alpha-5") /\
  exists b e1 e2, nback members [lit "base_dir"] (lit "/data/alpha-1/alpha-5") = Ok b /\
    gd_get streq b (lit "train") = Some (SInst e1) /\ gd_get streq b (lit "test") = Some (SInst e2) /\
    get_value e1 (lit "alpha") = Some (VInt 1) /\ get_value e2 (lit "alpha") = Some (VInt 1).
Proof. exact same_class. Qed.
Print Assumptions C80_same_class_refuted.

(** An optional Struct that is not set takes the directory of the field in front of it, which takes one from outside. *)
Theorem C80_unset_refuted :
  let members := [just (required (positional (unnamed (named "exp" CStr))));
    meant "env" false [just (required (positional (unnamed (named "kind" CStr))))] [lit "base_dir"]; just (named "seed" CInt)] in
  nested_string members [value "exp" (VStr (lit "coin")); value "seed" (VInt 5)] = Ok (lit "coin/seed-5") /\
  exists b e, nback members [lit "base_dir"] (lit "/data/coin/seed-5") = Ok b /\ gd_get streq b (lit "env") = Some (SInst e) /\
    get_value e (lit "kind") = Some (VStr (lit "coin")) /\ get_value b (lit "exp") = Some (VStr (lit "data")) /\
    get_value b (lit "base_dir") = Some (VStr (lit "/")).
Proof. exact unset_struct. Qed.
Print Assumptions C80_unset_refuted.
