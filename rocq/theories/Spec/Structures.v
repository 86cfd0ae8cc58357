(** What a class and an instance have to look like for the directory string to be read back. *)
From Coq Require Import Permutation.
From Verif Require Export Spec.FileNames Model.Structures.
Open Scope Z_scope.

(** one component of a path *)
Definition plain (c : pystr) : Prop := c <> [] /\ ~ In slash c /\ c <> [dot] /\ c <> [dot; dot].

(** the path with the given components, from the root or not *)
Definition path_text (rooted : bool) (comps : list pystr) : pystr :=
  (if rooted then [slash] else []) ++ join [slash] comps.

(** a directory in normal form: empty, the root, or plain components *)
Definition normal_dir (p : pystr) : Prop := exists rooted comps, p = path_text rooted comps /\ Forall plain comps.

(** letters, digits and underscores: the names that inspect.Parameter accepts, as far as they are ASCII *)
Definition ident (n : pystr) : Prop :=
  n <> [] /\ Forall (fun c => 97 <= c <= 122 \/ 65 <= c <= 90 \/ 48 <= c <= 57 \/ c = 95) n.

Definition shown (f : field) : Prop := f_transient f = false.
(** the field that appears without name among the others at the end *)
Definition nameless (f : field) : Prop := shown f /\ f_positional f = false /\ f_keyword f = false.

(** [t] is what the value looks like in a file name *)
Definition value_text (v : pval) (t : pystr) : Prop :=
  exists u, clean_string v = Ok u /\ clean_string (VStr u) = Ok t.

(** Classes: the names differ, none is base_dir, at most one field appears at the end without name,
    and the first field is no sentinel. *)
Record class_fit (fs : list field) : Prop := {
  co_names : NoDup (map f_name fs);
  co_ident : forall f, In f fs -> ident (f_name f);
  co_base : ~ In (lit "base_dir") (map f_name fs);
  co_one : forall f g, In f fs -> In g fs -> nameless f -> nameless g -> f = g }.
Record class_ok (fs : list field) : Prop := {
  co_fit :> class_fit fs;
  co_shown : exists f, In f fs /\ shown f;
  co_first : forall f rest, fs = f :: rest -> f_constant f = None }.

Section readable.
  Variable literal_eval : pystr -> option pval.
  Variable uninumeric : pystr -> bool.

  (** The text of a field that can be told from its surroundings. *)
  Definition text_ok (f : field) (t : pystr) : Prop :=
    if f_positional f then
      if f_keyword f then
        ~ In dash t /\ ~ In underscore t /\ ~ In underscore (f_name f) /\
        literal_eval (f_name f) = None /\ isnumeric uninumeric (f_name f) = false /\
        literal_eval (f_name f ++ [dash] ++ t) = None
      else plain t
    else ~ In underscore t /\ t <> [dot] /\ t <> [dot; dot].

  (** Instances: the positional fields, the nameless one and the required ones are set; if the class has
      fields with names or a nameless field, something at the end is set; the texts are fine. *)
  Record inst_ok (fs : list field) (inst : attrs) : Prop := {
    io_pos : forall f, In f fs -> shown f -> f_positional f = true -> get_attr inst (f_name f) <> None;
    io_npnk : forall f, In f fs -> nameless f -> get_attr inst (f_name f) <> None;
    io_req : forall f, In f fs -> shown f -> f_required f = true -> get_attr inst (f_name f) <> None;
    io_last : (exists f, In f fs /\ shown f /\ (f_keyword f = true \/ f_positional f = false)) ->
      exists f v t, In f fs /\ shown f /\ f_positional f = false /\ get_attr inst (f_name f) = Some v /\
        value_text v t /\ (f_keyword f = true \/ t <> []);
    io_text : forall f v, In f fs -> shown f -> get_attr inst (f_name f) = Some v ->
      exists t, value_text v t /\ text_ok f t }.

  (** Values that their class of field restores. A named positional field takes a value in one piece. *)
  Variable is_float : pystr -> bool.
  Definition typed (f : field) (v : pval) : Prop :=
    match f_class f with
    | CStr => exists s, v = VStr s /\ Forall safe s
    | CInt => (exists n, v = VInt n) \/ (exists b, v = VBool b)
    | CFloat => exists s, v = VOther s /\ is_float s = true
    | CBool => exists b, v = VBool b
    | CList => exists l, v = VList l /\ l <> [] /\ l <> [VStr []; VStr []] /\ Forall (item literal_eval uninumeric) l /\
        (forall s, l = [VOther s] -> isnumeric uninumeric s = false)
    | CKeyed => exists d, v = VDict d /\ d <> [] /\ NoDup (map fst d) /\
        forall k x, In (k, x) d -> Forall safe k /\ ~ In dash k /\ restorable literal_eval uninumeric x
    | CAny => True
    end.
  Definition kept (f : field) (v : pval) : Prop :=
    typed f v /\ f_nargs f = None /\ (forall ok, f_choices f = Some ok -> ok v = true) /\
    (f_positional f = true -> f_keyword f = true -> item literal_eval uninumeric v /\ f_class f <> CList) /\
    match f_class f with
    | CStr | CList | CKeyed => True
    | _ => restorable literal_eval uninumeric v /\
           forall l t, v = VList l -> value_text v t -> literal_eval t = None
    end.

  (** Instances that come back: every field shown is unset and has no default, or has such a value; the
      others are optional without default. *)
  Definition all_kept (fs : list field) (inst : attrs) : Prop :=
    forall f, In f fs ->
      match get_attr inst (f_name f) with
      | Some v => shown f -> kept f v
      | None => f_default f = None /\ (shown f -> f_class f <> CList)
      end /\ (f_transient f = true -> f_required f = false /\ f_default f = None).
End readable.

(** dictionaries may change their order *)
Definition same_value (v w : pval) : Prop :=
  v = w \/ exists d e, v = VDict d /\ w = VDict e /\ Permutation d e.

(** literal_eval on integers, None, True and False; other texts (names, words with dashes) raise *)
Definition simple_eval (s : pystr) : option pval :=
  match int_of_str (fun _ => None) s with
  | Some n => Some (VInt n)
  | None => if streq s (lit "None") then Some VNone
            else if streq s (lit "True") then Some (VBool true)
            else if streq s (lit "False") then Some (VBool false) else None
  end.

(** fields as they are most often declared: a field with a name at the end *)
Definition named (n : string) (c : fclass) : field := Field (lit n) c false true false false None None None None.
Definition required (f : field) : field :=
  Field (f_name f) (f_class f) true (f_keyword f) (f_positional f) (f_transient f) (f_default f) (f_constant f) (f_choices f) (f_nargs f).
Definition positional (f : field) : field :=
  Field (f_name f) (f_class f) (f_req f) (f_keyword f) true (f_transient f) (f_default f) (f_constant f) (f_choices f) (f_nargs f).
Definition unnamed (f : field) : field :=
  Field (f_name f) (f_class f) (f_req f) false (f_positional f) (f_transient f) (f_default f) (f_constant f) (f_choices f) (f_nargs f).
Definition sentinel (c : pval) (f : field) : field :=
  Field (f_name f) (f_class f) (f_req f) (f_keyword f) (f_positional f) (f_transient f) (f_default f) (Some c) (f_choices f) (f_nargs f).
Definition many (f : field) : field :=
  Field (f_name f) (f_class f) (f_req f) (f_keyword f) (f_positional f) (f_transient f) (f_default f) (f_constant f) (f_choices f) (Some NPlus).
Definition attr (n : string) (v : pval) : pystr * option pval := (lit n, Some v).
