(** C78: A command line sets the fields it names. *)
From Coq Require Import Permutation.
From Verif Require Import Spec.ArgsSpec Proofs.ArgsTop Proofs.ArgsNeg Proofs.ArgsLost Proofs.ArgsEx Proofs.ArgsMoreFacts.
Open Scope Z_scope.

(** An accepted command line makes the instance that the constructor makes of the values given, and of what argparse
    puts in for the others. *)
Theorem C78_reads : forall literal_eval uni uninumeric other_int is_float to_float to_str other_true unineg fs inherited ps, args_class fs -> line_ok uni to_float fs ps ->
  exists kw, from_args literal_eval uni uninumeric other_int is_float to_float to_str other_true unineg fs inherited (command_line ps) = construct literal_eval uni uninumeric other_int is_float to_float to_str other_true fs inherited kw /\
    (forall n v, In (n, v) (values_given ps) -> gd_get streq kw n = Some v) /\
    (forall f v, In f fs -> ~ In (f_name f) (map fst (values_given ps)) -> not_given uni to_float f v -> gd_get streq kw (f_name f) = Some v) /\
    (forall k, ~ In k (map f_name fs) -> gd_get streq kw k = None).
Proof. exact args_read. Qed.
Print Assumptions C78_reads.

Example C78_reads_ex : forall uni to_float, args_class ex_class /\ line_ok uni to_float ex_class ex_line /\
  command_line ex_line = [lit "--cuts"; lit "1"; lit "-2"; lit "--zeta"; lit "3"; lit "--cou=-5"; lit "--verbose"; lit "--tag"; lit "a"; lit "b"].
Proof. intros. split; [exact ex_class_ok|]. split; [apply ex_line_ok|reflexivity]. Qed.

(** A field of a simple class that is given has that value, in a list if it has nargs. *)
Theorem C78_given : forall literal_eval uni uninumeric other_int is_float to_float to_str other_true unineg fs inherited ps inst f v, (forall v s, to_float v = Some s -> exists t, s = VOther t /\ is_float t = true) ->
  args_class fs -> line_ok uni to_float fs ps -> (forall n, In n inherited -> ~ In n (map f_name fs)) ->
  from_args literal_eval uni uninumeric other_int is_float to_float to_str other_true unineg fs inherited (command_line ps) = Ok inst -> In f fs -> In (f_name f, v) (values_given ps) ->
  plain_class (f_class f) -> (f_class f = CBool -> f_nargs f = None) -> v <> VNone ->
  get_attr inst (f_name f) = Some (attribute f v).
Proof. exact args_sets. Qed.
Print Assumptions C78_given.

(** A field of a simple class with a default has it when it is not given, as if it were constructed alone. *)
Theorem C78_default : forall literal_eval uni uninumeric other_int is_float to_float to_str other_true unineg fs inherited ps inst f d, (forall v s, to_float v = Some s -> exists t, s = VOther t /\ is_float t = true) ->
  args_class fs -> line_ok uni to_float fs ps -> (forall n, In n inherited -> ~ In n (map f_name fs)) ->
  from_args literal_eval uni uninumeric other_int is_float to_float to_str other_true unineg fs inherited (command_line ps) = Ok inst -> In f fs -> ~ In (f_name f) (map fst (values_given ps)) ->
  plain_class (f_class f) -> f_default f = Some d ->
  exists inst1, construct literal_eval uni uninumeric other_int is_float to_float to_str other_true [f] [] [] = Ok inst1 /\ get_attr inst (f_name f) = get_attr inst1 (f_name f).
Proof. exact args_default. Qed.
Print Assumptions C78_default.

Example C78_values_ex : exists inst, from_args (fun _ => None) (fun _ => None) (fun _ => false) (fun _ => None) (fun _ => false) (fun _ => None)
    (fun _ => []) (fun _ => false) (fun _ => false) ex_class [] (command_line ex_line) = Ok inst /\
  get_attr inst (lit "count") = Some (VInt (-5)) /\ get_attr inst (lit "tag") = Some (VList [VStr (lit "a"); VStr (lit "b")]) /\
  get_attr inst (lit "label") = Some (VStr (lit "x")).
Proof. eexists. vm_compute. repeat split; reflexivity. Qed.

(** Neither the order of the options nor options of others change the instance. *)
Theorem C78_order : forall literal_eval uni uninumeric other_int is_float to_float to_str other_true unineg fs inherited ps qs, args_class fs -> line_ok uni to_float fs ps -> line_ok uni to_float fs qs ->
  Permutation (values_given ps) (values_given qs) ->
  from_args literal_eval uni uninumeric other_int is_float to_float to_str other_true unineg fs inherited (command_line ps) = from_args literal_eval uni uninumeric other_int is_float to_float to_str other_true unineg fs inherited (command_line qs).
Proof. exact args_order. Qed.
Print Assumptions C78_order.

Example C78_order_ex : forall uni to_float, line_ok uni to_float ex_class ex_line /\ line_ok uni to_float ex_class ex_line2 /\
  Permutation (values_given ex_line) (values_given ex_line2) /\ ex_line <> ex_line2.
Proof. intros. split; [apply ex_line_ok|]. split; [apply ex_line2_ok|]. split; [apply ex_perm|discriminate]. Qed.

(** Without a required field, Booleans apart, the program ends. *)
Theorem C78_required : forall literal_eval uni uninumeric other_int is_float to_float to_str other_true unineg fs inherited ps f, args_class fs -> (forall p, In p ps -> part_ok uni to_float fs p) ->
  NoDup (map fst (values_given ps)) -> In f fs -> f_required f = true -> f_class f <> CBool -> ~ In (f_name f) (map fst (values_given ps)) ->
  from_args literal_eval uni uninumeric other_int is_float to_float to_str other_true unineg fs inherited (command_line ps) = Err SystemExit.
Proof. exact args_required. Qed.
Print Assumptions C78_required.

Example C78_required_ex : forall uni to_float, exists f, In f ex_class /\ f_required f = true /\ f_class f <> CBool /\
  ~ In (f_name f) (map fst (values_given (firstn 2 ex_line))) /\ forall p, In p (firstn 2 ex_line) -> part_ok uni to_float ex_class p.
Proof.
  intros. exists (required (named "count" CInt)). split; [now left|]. split; [reflexivity|]. split; [discriminate|].
  split; [intros [X|[]]; discriminate X|]. intros p H. apply ex_parts. left. destruct H as [<-|[<-|[]]]; cbn; tauto.
Qed.

(** The two options of a Boolean or Listable field exclude each other. *)
Theorem C78_exclusive : forall literal_eval uni uninumeric other_int is_float to_float to_str other_true unineg fs inherited ps qs f t1 ws1 v1 o1 t2 ws2 v2 o2, args_class fs ->
  (forall p, In p (ps ++ Option_words f t2 ws2 v2 :: qs) -> part_ok uni to_float fs p) -> NoDup (map fst (values_given ps)) ->
  In (Option_words f t1 ws1 v1) ps -> In o1 (options f) -> In o2 (options f) -> stands_for fs t1 o1 -> stands_for fs t2 o2 -> o1 <> o2 ->
  from_args literal_eval uni uninumeric other_int is_float to_float to_str other_true unineg fs inherited (command_line (ps ++ Option_words f t2 ws2 v2 :: qs)) = Err SystemExit.
Proof. exact args_exclusive. Qed.
Print Assumptions C78_exclusive.

(** Words that the option does not accept end the program: none, too few, or some that the class or the choices refuse. *)
Theorem C78_refused : forall literal_eval uni uninumeric other_int is_float to_float to_str other_true unineg fs inherited ps qs f t o ws, args_class fs -> (forall p, In p (ps ++ qs) -> part_ok uni to_float fs p) ->
  NoDup (map fst (values_given ps)) -> In f fs -> stands_for fs t o -> Forall argument ws -> refuses uni to_float f o ws ->
  from_args literal_eval uni uninumeric other_int is_float to_float to_str other_true unineg fs inherited (command_line ps ++ (t :: ws) ++ command_line qs) = Err SystemExit.
Proof. exact args_refused. Qed.
Print Assumptions C78_refused.

Example C78_refused_ex : forall uni to_float, let v := with_default (VBool false) (named "verbose" CBool) in
  (In v ex_class /\ stands_for ex_class (lit "--verbose_off") (lit "--verbose_off") /\ In (lit "--verbose_off") (options v) /\ In (lit "--verbose") (options v) /\
   gives uni to_float v (lit "--verbose_off") [] (VBool false) /\ In (Option_words v (lit "--verbose") [] (VBool true)) ex_line) /\
  stands_for ex_class (lit "--count") (lit "--count") /\ refuses uni to_float (required (named "count" CInt)) (lit "--count") [lit "5x"].
Proof.
  intros uni to_float v. split.
  - split; [cbn; tauto|]. split; [now left|]. split; [now left|]. split; [right; now left|]. split; [now apply (gives_off uni to_float v)|]. cbn. tauto.
  - split; [now left|]. apply (refuses_first uni to_float (required (named "count" CInt))); [now split|discriminate|now left|].
    intros x (n & E & _). vm_compute in E. discriminate E.
Qed.

(** Refuted: that a default is used. The one of a Listable or Keyed field is lost. *)
Theorem C78_default_refuted : forall literal_eval uni uninumeric other_int is_float to_float to_str other_true unineg fs inherited ps inst f, args_class fs -> line_ok uni to_float fs ps -> (forall n, In n inherited -> ~ In n (map f_name fs)) ->
  from_args literal_eval uni uninumeric other_int is_float to_float to_str other_true unineg fs inherited (command_line ps) = Ok inst -> In f fs -> ~ In (f_name f) (map fst (values_given ps)) ->
  match f_class f with
  | CList => get_attr inst (f_name f) = Some (VList [])
  | CKeyed => get_attr inst (f_name f) = Some VNone
  | _ => True
  end.
Proof. exact args_lost. Qed.
Print Assumptions C78_default_refuted.

Theorem C78_list_default_refuted : forall literal_eval uni uninumeric other_int is_float to_float to_str other_true unineg, let lists := [with_default (VList [VInt 1; VInt 2]) (named "cut" CList)] in
  construct literal_eval uni uninumeric other_int is_float to_float to_str other_true lists [] [] = Ok [(lit "cut", Some (VList [VInt 1; VInt 2]))] /\ from_args literal_eval uni uninumeric other_int is_float to_float to_str other_true unineg lists [] [] = Ok [(lit "cut", Some (VList []))].
Proof. exact list_default_lost. Qed.
Print Assumptions C78_list_default_refuted.

Theorem C78_required_default_refuted : forall literal_eval uni uninumeric other_int is_float to_float to_str other_true unineg, let number := [required (with_default (VInt 3) (named "count" CInt))] in
  construct literal_eval uni uninumeric other_int is_float to_float to_str other_true number [] [] = Ok [(lit "count", Some (VInt 3))] /\ from_args literal_eval uni uninumeric other_int is_float to_float to_str other_true unineg number [] [] = Err SystemExit.
Proof. exact required_default_lost. Qed.
Print Assumptions C78_required_default_refuted.

(** Refuted: that an optional field may be left out. A number raises, a text is that of None. *)
Theorem C78_optional_refuted : forall literal_eval uni uninumeric other_int is_float to_float to_str other_true unineg,
  (construct literal_eval uni uninumeric other_int is_float to_float to_str other_true [named "count" CInt] [] [] = Ok [] /\ from_args literal_eval uni uninumeric other_int is_float to_float to_str other_true unineg [named "count" CInt] [] [] = Err TypeError) /\
  (construct literal_eval uni uninumeric other_int is_float to_float to_str other_true [named "label" CStr] [] [] = Ok [] /\ from_args literal_eval uni uninumeric other_int is_float to_float to_str other_true unineg [named "label" CStr] [] [] = Ok [(lit "label", Some (VStr (to_str VNone)))]).
Proof. exact optional_lost. Qed.
Print Assumptions C78_optional_refuted.

(** Refuted: that several classes can read one command line. A short name of one is taken for the beginning of a longer one. *)
Theorem C78_others_refuted : forall literal_eval uni uninumeric other_int is_float to_float to_str other_true unineg,
  from_args literal_eval uni uninumeric other_int is_float to_float to_str other_true unineg [named "al" CInt] [] [lit "--al"; lit "5"] = Ok [(lit "al", Some (VInt 5))] /\
  from_args literal_eval uni uninumeric other_int is_float to_float to_str other_true unineg [named "alpha" CInt] [] [lit "--al"; lit "5"] = Ok [(lit "alpha", Some (VInt 5))] /\
  from_args literal_eval uni uninumeric other_int is_float to_float to_str other_true unineg [named "h" CInt] [] [lit "--h"; lit "5"] = Ok [(lit "h", Some (VInt 5))] /\
  from_args literal_eval uni uninumeric other_int is_float to_float to_str other_true unineg [with_default (VInt 0) (named "alpha" CInt)] [] [lit "--h"; lit "5"] = Err SystemExit.
Proof. exact short_captured. Qed.
Print Assumptions C78_others_refuted.

(** Refuted: that every class has command lines. *)
Theorem C78_class_refuted : forall literal_eval uni uninumeric other_int is_float to_float to_str other_true unineg, exists inst,
  construct literal_eval uni uninumeric other_int is_float to_float to_str other_true [named "x" CList; named "xs" CStr] [] [(lit "x", VInt 1); (lit "xs", VStr (lit "a"))] = Ok inst /\
  forall args, from_args literal_eval uni uninumeric other_int is_float to_float to_str other_true unineg [named "x" CList; named "xs" CStr] [] args = Err ArgumentError.
Proof. exact plural_conflict. Qed.
Print Assumptions C78_class_refuted.

(** What follows two dashes is not read. *)
Theorem C78_dashes : forall literal_eval uni uninumeric other_int is_float to_float to_str other_true unineg fs inherited args rest, ~ In [dash; dash] args ->
  from_args literal_eval uni uninumeric other_int is_float to_float to_str other_true unineg fs inherited (args ++ [dash; dash] :: rest) = from_args literal_eval uni uninumeric other_int is_float to_float to_str other_true unineg fs inherited args.
Proof. exact after_dashes. Qed.
Print Assumptions C78_dashes.

(** The beginning of two options, that is no option itself, ends the program. *)
Theorem C78_ambiguous : forall literal_eval uni uninumeric other_int is_float to_float to_str other_true unineg fs inherited ps qs n o1 o2 r1 r2, args_class fs -> ~ In [dash; dash] ps -> n <> [] -> ~ In (flag n) (all_options fs) ->
  In o1 (all_options fs) -> In o2 (all_options fs) -> o1 = flag n ++ r1 -> o2 = flag n ++ r2 -> o1 <> o2 ->
  from_args literal_eval uni uninumeric other_int is_float to_float to_str other_true unineg fs inherited (ps ++ flag n :: qs) = Err SystemExit.
Proof. exact ambiguous. Qed.
Print Assumptions C78_ambiguous.

Example C78_ambiguous_ex : args_class ex_class /\ ~ In (flag (lit "c")) (all_options ex_class) /\
  In (flag (lit "count")) (all_options ex_class) /\ In (flag (lit "cuts")) (all_options ex_class) /\
  flag (lit "count") = flag (lit "c") ++ lit "ount" /\ flag (lit "cuts") = flag (lit "c") ++ lit "uts".
Proof. split; [exact ex_class_ok|]. vm_compute. repeat apply conj; try reflexivity; try tauto. intros H. repeat destruct H as [H|H]; congruence. Qed.

(** The options of a Boolean field take no value. *)
Theorem C78_flag_value : forall literal_eval uni uninumeric other_int is_float to_float to_str other_true unineg fs inherited f o t w rest, args_class fs -> In f fs -> f_class f = CBool -> In o (options f) -> stands_for fs t o ->
  from_args literal_eval uni uninumeric other_int is_float to_float to_str other_true unineg fs inherited ((t ++ 61 :: w) :: rest) = Err SystemExit.
Proof. exact flag_value. Qed.
Print Assumptions C78_flag_value.

Example C78_flag_value_ex : let v := with_default (VBool false) (named "verbose" CBool) in
  args_class ex_class /\ In v ex_class /\ In (lit "--verbose") (options v) /\ stands_for ex_class (lit "--verbose") (lit "--verbose").
Proof. split; [exact ex_class_ok|]. split; [cbn; tauto|]. split; [right; now left|now left]. Qed.
