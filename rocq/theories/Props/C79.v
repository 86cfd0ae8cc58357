(** C79: A Structure is rebuilt from its own command line. *)
From Verif Require Import Spec.ArgsSpec Proofs.ArgsTop Proofs.ArgsNeg Proofs.ArgsLost Proofs.ArgsEx Proofs.StructuresNeg Proofs.ArgsMoreFacts.
Open Scope Z_scope.

Theorem C79_round_trip : forall literal_eval uni uninumeric pval_eq other_int is_float to_float to_str other_true unineg, evaluates literal_eval -> forall fs inherited inst, args_class fs -> (forall n, In n inherited -> ~ In n (map f_name fs)) ->
  all_return literal_eval uninumeric is_float to_float fs inst ->
  exists s inst2, get_arg_string other_true fs inst = Ok s /\ from_string literal_eval uni uninumeric other_int is_float to_float to_str other_true unineg fs inherited s = Ok inst2 /\
    (forall f v, In f fs -> get_attr inst (f_name f) = Some v -> exists w, get_attr inst2 (f_name f) = Some w /\ same_value v w) /\
    (fs <> [] -> from_wildcard literal_eval uni uninumeric pval_eq other_int is_float to_float to_str other_true unineg fs inherited (WText s) = Ok inst2).
Proof. exact args_back. Qed.
Print Assumptions C79_round_trip.

Example C79_round_trip_ex : evaluates simple_eval /\ args_class ex_class /\
  all_return simple_eval (fun _ => false) (fun _ => false) (fun _ => None) ex_class ex_inst /\
  get_arg_string (fun _ => false) ex_class ex_inst = Ok (lit "--count -5 --verbose --cut 1-b --key a-0_b-1-2 --label a-b/c --tag t --x y").
Proof. split; [exact simple_evaluates|]. split; [exact ex_class_ok|]. split; [exact ex_returns|exact ex_string]. Qed.

(** Refuted for texts with a space: the rest is dropped. *)
Theorem C79_space_refuted : forall literal_eval uni uninumeric other_int is_float to_float to_str other_true unineg,
  get_arg_string other_true [named "label" CStr] [(lit "label", Some (VStr (lit "two words")))] = Ok (lit "--label two words") /\
  from_string literal_eval uni uninumeric other_int is_float to_float to_str other_true unineg [named "label" CStr] [] (lit "--label two words") = Ok [(lit "label", Some (VStr (lit "two")))].
Proof. exact space_lost. Qed.
Print Assumptions C79_space_refuted.

(** Refuted for the numbers of a field without class: they come back as texts. *)
Theorem C79_number_refuted : forall literal_eval uni uninumeric other_int is_float to_float to_str other_true unineg,
  get_arg_string other_true [named "x" CAny] [(lit "x", Some (VInt 5))] = Ok (lit "--x 5") /\
  from_string literal_eval uni uninumeric other_int is_float to_float to_str other_true unineg [named "x" CAny] [] (lit "--x 5") = Ok [(lit "x", Some (VStr (lit "5")))].
Proof. exact number_lost. Qed.
Print Assumptions C79_number_refuted.

(** Refuted for lists that begin with a negative number. *)
Theorem C79_negative_refuted : forall literal_eval uni uninumeric other_int is_float to_float to_str other_true unineg,
  get_arg_string other_true [named "cut" CList] [(lit "cut", Some (VList [VInt (-1); VInt 2]))] = Ok (lit "--cut -1-2") /\
  from_string literal_eval uni uninumeric other_int is_float to_float to_str other_true unineg [named "cut" CList] [] (lit "--cut -1-2") = Err SystemExit.
Proof. exact negative_lost. Qed.
Print Assumptions C79_negative_refuted.

(** Refuted for negative numbers with an exponent. *)
Theorem C79_exponent_refuted : forall literal_eval uni uninumeric other_int is_float to_float to_str other_true unineg,
  get_arg_string other_true [named "rate" CFloat] [(lit "rate", Some (VOther (lit "-1e-05")))] = Ok (lit "--rate -1e-05") /\
  from_string literal_eval uni uninumeric other_int is_float to_float to_str other_true unineg [named "rate" CFloat] [] (lit "--rate -1e-05") = Err SystemExit.
Proof. exact exponent_lost. Qed.
Print Assumptions C79_exponent_refuted.

(** Refuted for several values of a field with nargs: they become one. *)
Theorem C79_several_refuted : forall literal_eval uni uninumeric other_int is_float to_float to_str other_true unineg,
  get_arg_string other_true [with_nargs NPlus (named "tag" CStr)] [(lit "tag", Some (VList [VStr (lit "a"); VStr (lit "b")]))] = Ok (lit "--tag a-b") /\
  from_string literal_eval uni uninumeric other_int is_float to_float to_str other_true unineg [with_nargs NPlus (named "tag" CStr)] [] (lit "--tag a-b") = Ok [(lit "tag", Some (VList [VStr (lit "a-b")]))].
Proof. exact several_lost. Qed.
Print Assumptions C79_several_refuted.

(** Refuted for a dictionary before a field that is not set. *)
Theorem C79_unset_refuted : forall literal_eval uni uninumeric other_int is_float to_float to_str other_true unineg,
  get_arg_string other_true [named "key" CKeyed; named "x" CAny] [(lit "key", Some (VDict [(lit "a", VInt 0)]))] = Ok (lit "--key a-0 ") /\
  from_string literal_eval uni uninumeric other_int is_float to_float to_str other_true unineg [named "key" CKeyed; named "x" CAny] [] (lit "--key a-0 ") = Err IndexError.
Proof. exact unset_lost. Qed.
Print Assumptions C79_unset_refuted.

(** Refuted: that [from_wildcard] reads a directory string like [from_dir_string]. *)
Theorem C79_directory_refuted : forall literal_eval uni uninumeric pval_eq other_int is_float to_float to_str other_true unineg,
  from_dir_string literal_eval uni uninumeric pval_eq other_int is_float to_float to_str other_true [named "label" CStr] [] (lit "label-a--b") = Ok [(lit "label", Some (VStr (lit "a--b")))] /\
  from_wildcard literal_eval uni uninumeric pval_eq other_int is_float to_float to_str other_true unineg [named "label" CStr] [] (WText (lit "label-a--b")) = Ok [(lit "label", Some (VStr (to_str VNone)))].
Proof. exact directory_lost. Qed.
Print Assumptions C79_directory_refuted.

(** A dictionary sets the fields of the classes it is derived from as well. *)
Theorem C79_inherited : forall literal_eval uni uninumeric pval_eq other_int is_float to_float to_str other_true unineg fs inherited kw inst n v,
  from_wildcard literal_eval uni uninumeric pval_eq other_int is_float to_float to_str other_true unineg fs inherited (WDict kw) = Ok inst ->
  In n inherited -> gd_get streq kw n = Some v -> get_attr inst n = Some v.
Proof. exact dict_inherited. Qed.
Print Assumptions C79_inherited.

Example C79_inherited_ex : forall literal_eval uni uninumeric pval_eq other_int is_float to_float to_str other_true unineg,
  from_wildcard literal_eval uni uninumeric pval_eq other_int is_float to_float to_str other_true unineg [named "x" CInt] [lit "seed"] (WDict [(lit "seed", VInt 3); (lit "x", VInt 1)]) =
  Ok [(lit "x", Some (VInt 1)); (lit "seed", Some (VInt 3))].
Proof. reflexivity. Qed.

(** Refuted for a Boolean field that has no default and is not given: there is no command line. *)
Theorem C79_boolean_refuted : forall literal_eval uni uninumeric other_int is_float to_float to_str other_true,
  construct literal_eval uni uninumeric other_int is_float to_float to_str other_true [named "b" CBool] [] [] = Ok [] /\ get_arg_string other_true [named "b" CBool] [] = Err AttributeError.
Proof. exact boolean_lost. Qed.
Print Assumptions C79_boolean_refuted.
