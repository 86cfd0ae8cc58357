(** C68: the constructor of a Structure checks and converts what it is given. *)
From Verif Require Import Spec.StructureSpec Proofs.StructuresNeg Proofs.StructuresMore.
Open Scope Z_scope.

(** Whatever the keywords: when construction succeeds, every field that is no Listable or Keyed holds a
    value of its type and among its choices (as many as nargs says) if a value was given or there is a
    default; otherwise it is optional and not set. *)
Theorem C68_valid : forall literal_eval uni uninumeric other_int is_float to_float to_str other_true,
  (forall v w, to_float v = Some w -> of_class is_float CFloat w) ->
  forall fs inherited kw inst, NoDup (map f_name fs) ->
  (forall n, In n inherited -> ~ In n (map f_name fs)) ->
  construct literal_eval uni uninumeric other_int is_float to_float to_str other_true fs inherited kw = Ok inst ->
  forall f, In f fs -> plain_class (f_class f) ->
  match given f kw, get_attr inst (f_name f) with
  | Some _, Some w => valid is_float f w
  | None, None => f_required f = false
  | _, _ => False
  end.
Proof. exact construct_valid. Qed.
Print Assumptions C68_valid.

(** Values that are valid are kept as they are. *)
Theorem C68_kept : forall literal_eval uni uninumeric other_int is_float to_float to_str other_true,
  forall fs inherited kw inst, NoDup (map f_name fs) ->
  (forall n, In n inherited -> ~ In n (map f_name fs)) ->
  construct literal_eval uni uninumeric other_int is_float to_float to_str other_true fs inherited kw = Ok inst ->
  forall f v, In f fs -> plain_class (f_class f) -> (forall k, f_nargs f = Some (NNum k) -> 0 <= k) ->
  gd_get streq kw (f_name f) = Some v -> valid is_float f v -> get_attr inst (f_name f) = Some v.
Proof. exact construct_kept. Qed.
Print Assumptions C68_kept.

(** A required field without value and default is an error, and so is a value outside the choices. *)
Theorem C68_missing : forall literal_eval uni uninumeric other_int is_float to_float to_str other_true fs inherited kw f,
  In f fs -> given f kw = None -> f_required f = true ->
  exists e, construct literal_eval uni uninumeric other_int is_float to_float to_str other_true fs inherited kw = Err e.
Proof. exact construct_missing. Qed.
Print Assumptions C68_missing.

(** With nargs, the argument [required] does not count: '+' asks for a value, the others do not. *)
Theorem C68_nargs : forall literal_eval uni uninumeric other_int is_float to_float to_str other_true f n kw,
  f_nargs f = Some n -> n <> NNum 0 -> plain_class (f_class f) -> given f kw = None ->
  construct literal_eval uni uninumeric other_int is_float to_float to_str other_true [f] [] kw =
    match n with NPlus => Err TypeError | _ => Ok [] end.
Proof. exact construct_nargs. Qed.
Print Assumptions C68_nargs.

Theorem C68_choice : forall literal_eval uni uninumeric other_int is_float to_float to_str other_true
  fs inherited kw f v ok,
  In f fs -> plain_class (f_class f) -> nargs_of f = None -> given f kw = Some v ->
  of_class is_float (f_class f) v -> f_choices f = Some ok -> ok v = false ->
  exists e, construct literal_eval uni uninumeric other_int is_float to_float to_str other_true fs inherited kw = Err e.
Proof. exact construct_choice. Qed.
Print Assumptions C68_choice.

(** Constructing from the attributes of an instance gives the same attributes (all classes of fields). *)
Theorem C68_again : forall literal_eval uni uninumeric other_int is_float to_float to_str other_true,
  (forall v w, to_float v = Some w -> of_class is_float CFloat w) ->
  forall fs inherited kw inst, NoDup (map f_name fs) -> Forall unsigned fs ->
  (forall n, In n inherited -> ~ In n (map f_name fs)) ->
  construct literal_eval uni uninumeric other_int is_float to_float to_str other_true fs inherited kw = Ok inst ->
  exists inst2, construct literal_eval uni uninumeric other_int is_float to_float to_str other_true
    fs inherited (as_keywords inst) = Ok inst2 /\ forall n, get_attr inst2 n = get_attr inst n.
Proof. exact construct_again. Qed.
Print Assumptions C68_again.

(** Attributes are set for the fields and the inherited names only, and the inherited ones as given. *)
Theorem C68_inherited : forall literal_eval uni uninumeric other_int is_float to_float to_str other_true
  fs inherited kw inst, NoDup (map f_name fs) ->
  construct literal_eval uni uninumeric other_int is_float to_float to_str other_true fs inherited kw = Ok inst ->
  (forall n v, In n inherited -> gd_get streq kw n = Some v -> get_attr inst n = Some v) /\
  (forall n, get_attr inst n <> None -> In n (map f_name fs) \/ In n inherited).
Proof. exact construct_inherited. Qed.
Print Assumptions C68_inherited.

(** Listable ignores its choices. *)
Theorem C68_listable_choices_refuted : forall ok v, v <> VNone ->
  (forall s, v <> VStr s) -> (forall l, v <> VList l) -> (forall d, v <> VDict d) ->
  make [Field (lit "l") CList false true false false None None (Some ok) None] [] [(lit "l", v)] =
    Ok [attr "l" (VList [v])].
Proof. exact listable_choices. Qed.
Print Assumptions C68_listable_choices_refuted.

Example C68_ex : let fs := [many (named "n" CInt); Field (lit "m") CStr true true false false (Some (VStr (lit "a"))) None
    (Some (fun v => match v with VStr s => streq s (lit "a") || streq s (lit "b") | _ => false end)) None; named "l" CList] in
  NoDup (map f_name fs) /\ Forall unsigned fs /\
  make fs [lit "base_dir"] [(lit "n", VList [VStr (lit "12"); VBool true]); (lit "base_dir", VStr (lit "/d")); (lit "l", VStr (lit "x-2"))] =
    Ok [attr "n" (VList [VInt 12; VBool true]); attr "m" (VStr (lit "a")); attr "l" (VList [VStr (lit "x"); VInt 2]);
        attr "base_dir" (VStr (lit "/d"))] /\
  make fs [] [(lit "n", VInt 1); (lit "m", VStr (lit "c"))] = Err TypeError /\
  make fs [] [(lit "m", VStr (lit "b"))] = Err TypeError.
Proof. exact constructor_example. Qed.
