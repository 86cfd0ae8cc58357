(** What the constructor of a Structure promises, and other spellings of a path. *)
From Verif Require Export Spec.Structures.
Open Scope Z_scope.

(** the components of a path without empty ones and dots *)
Definition components (p : pystr) : list pystr :=
  filter (fun c => negb (streq c [] || streq c [dot])) (split slash p).

(** [p] spells the path with the given components, with superfluous slashes and dots perhaps, but with
    one slash at the beginning if rooted *)
Definition spells (rooted : bool) (comps : list pystr) (p : pystr) : Prop :=
  components p = comps /\
  if rooted then exists q, p = slash :: q /\ starts_with slash q = false else starts_with slash p = false.

Section valid.
  Variable is_float : pystr -> bool.

  (** the values of a class of field; True and False are integers *)
  Definition of_class (c : fclass) (v : pval) : Prop :=
    match c with
    | CInt => (exists n, v = VInt n) \/ (exists b, v = VBool b)
    | CFloat => exists s, v = VOther s /\ is_float s = true
    | CStr => exists s, v = VStr s
    | CBool => exists b, v = VBool b
    | CList | CKeyed | CAny => True
    end.
  Definition choice_ok (f : field) (v : pval) : Prop := forall ok, f_choices f = Some ok -> ok v = true.
  Definition plain_class (c : fclass) : Prop := c <> CList /\ c <> CKeyed.

  (** what is given for a field, or its default *)
  Definition given (f : field) (kw : list (pystr * pval)) : option pval :=
    match gd_get streq kw (f_name f) with Some v => Some v | None => f_default f end.

  (** the value that a field of a plain class may hold: one of its class and its choices, or a list of
      such values, as many as nargs says *)
  Definition valid (f : field) (w : pval) : Prop :=
    match f_nargs f with
    | None | Some (NNum 0) => of_class (f_class f) w /\ choice_ok f w
    | Some n => exists l, w = VList l /\ Forall (fun x => of_class (f_class f) x /\ choice_ok f x) l /\
                forall k, n = NNum k -> 0 < k -> Z.of_nat (length l) = k
    end.
End valid.

(** the attributes of an instance that are set, as keywords *)
Fixpoint as_keywords (inst : attrs) : list (pystr * pval) :=
  match inst with
  | [] => []
  | (n, Some v) :: rest => (n, v) :: as_keywords rest
  | (_, None) :: rest => as_keywords rest
  end.
