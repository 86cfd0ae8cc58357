(** What it takes to read a Structure with other Structures in it back from its directory string. *)
From Verif Require Export Spec.Structures Model.Nested.
Open Scope Z_scope.

(** all names, in the class and in the classes it holds *)
Fixpoint names (m : member) : list pystr :=
  match m with
  | MField f => [f_name f]
  | MStruct n _ _ _ _ con => n :: match con with Some (members, _) => flat_map names members | None => [] end
  end.
Definition all_names (members : list member) : list pystr := flat_map names members.

(** the value of an attribute *)
Definition get_value (a : sattrs) (n : pystr) : option pval := get_attr (own_attrs a) n.

Section fits.
  Variable literal_eval : pystr -> option pval.
  Variable uninumeric : pystr -> bool.
  Variable is_float : pystr -> bool.

  (** Every class fits as a class without Structs does (Spec/Structures.v); its directory string is not empty and does not
      look like a log file; every Struct has its place among the positional fields, shows no name, and holds an instance. *)
  Inductive nested_ok : list member -> sattrs -> Prop :=
  | NestedOk members a :
      class_fit (own_fields members) ->
      inst_ok literal_eval uninumeric (own_fields members) (own_attrs a) ->
      all_kept literal_eval uninumeric is_float (own_fields members) (own_attrs a) ->
      (forall f rest, members = MField f :: rest -> f_constant f = None) ->
      (exists m, In m members /\ match m with MField f => shown f | MStruct _ _ _ _ _ _ => True end) ->
      (forall d, nested_string members a = Ok d -> contains (lit "txt") (path_ext d) = false) ->
      (forall m, In m members -> member_ok a m) ->
      nested_ok members a
  with member_ok : sattrs -> member -> Prop :=
  | FieldOk a f : member_ok a (MField f)
  | StructOk a n req members inherited b :
      gd_get streq a n = Some (SInst b) ->
      nested_ok members b ->
      (forall x, In x inherited -> ~ In x (map member_name members)) ->
      member_ok a (MStruct n req false true false (Some (members, inherited))).
End fits.

(** [b] is [a] again, on all levels: the fields shown have the same values, and whoever inherits base_dir has it. *)
Inductive restored (base : pystr) : list member -> list pystr -> sattrs -> sattrs -> Prop :=
| Restored members inherited a b :
    (forall f, In (MField f) members -> shown f ->
       match get_value a (f_name f), get_value b (f_name f) with
       | Some v, Some w => same_value v w
       | None, None => True
       | _, _ => False
       end) ->
    (In (lit "base_dir") inherited -> get_value b (lit "base_dir") = Some (VStr base)) ->
    (forall m, In m members -> restored_member base m a b) ->
    restored base members inherited a b
with restored_member (base : pystr) : member -> sattrs -> sattrs -> Prop :=
| RestoredField f a b : restored_member base (MField f) a b
| RestoredStruct n req k p t members inherited a b x y :
    gd_get streq a n = Some (SInst x) -> gd_get streq b n = Some (SInst y) ->
    restored base members inherited x y ->
    restored_member base (MStruct n req k p t (Some (members, inherited))) a b.

(** a Struct as its class attributes mean it, and one with the flags that [__init__] sets if none are given *)
Definition meant (n : string) (req : bool) (members : list member) (inherited : list pystr) : member :=
  MStruct (lit n) req false true false (Some (members, inherited)).
Definition declared (n : string) (req : bool) (members : list member) (inherited : list pystr) : member :=
  MStruct (lit n) req true false false (Some (members, inherited)).
Definition value (n : string) (v : pval) : pystr * sval := (lit n, SVal (Some v)).
Definition holds (n : string) (a : sattrs) : pystr * sval := (lit n, SInst a).
Definition just (f : field) : member := MField f.
