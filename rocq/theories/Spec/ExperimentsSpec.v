(** What it means to enter an Experiment. *)
From Verif Require Export Spec.StructLogsSpec Model.Experiments.
Open Scope Z_scope.

Section spec.
  Variable experiment : list member -> list pystr -> bool.

  (** Everything that is set can be entered: the directory strings exist, names do not clash, and what a Structure inherits
      is an attribute of the outer one, which may have it by inheritance itself. *)
  Inductive ready : list pystr -> list member -> sattrs -> Prop :=
  | Ready avail members a d :
      nested_string members a = Ok d ->
      NoDup (map member_name members) ->
      ~ In (lit "base_dir") (map member_name members) -> ~ In (lit "input_dim") (map member_name members) ->
      (forall m, In m members -> ready_member avail a m) ->
      ready avail members a
  with ready_member : list pystr -> sattrs -> member -> Prop :=
  | ReadyField avail a f : ready_member avail a (MField f)
  | ReadyUnset avail a n req k p t con : gd_get streq a n = None -> ready_member avail a (MStruct n req k p t con)
  | ReadyStruct avail a n req k p t members inherited b d :
      gd_get streq a n = Some (SInst b) ->
      nested_string members b = Ok d ->
      In (lit "base_dir") inherited ->
      (forall x, In x inherited -> ~ In x (map member_name members)) ->
      (forall x, In x inherited -> x = lit "base_dir" \/ x = lit "input_dim" \/ In x avail \/ gd_get streq a x <> None) ->
      (experiment members inherited = true -> ready inherited members b) ->
      ready_member avail a (MStruct n req k p t (Some (members, inherited))).

  (** After entering: the Structures inside lie one in the other, in their order, in the directory of the fields that are not
      positional; a keyword Struct in a directory with its name. Inner Experiments have been entered in turn. *)
  Inductive entered : list member -> sattrs -> Prop :=
  | Entered members b d s :
      get_value b (lit "base_dir") = Some (VStr d) ->
      get_nonpos_string (own_attrs b) (own_fields members) = Ok s ->
      walked (normpath (path_join2 d s)) members b ->
      entered members b
  with walked : pystr -> list member -> sattrs -> Prop :=
  | WalkedAll dir b : walked dir [] b
  | WalkedField dir f rest b : walked dir rest b -> walked dir (MField f :: rest) b
  | WalkedUnset dir n req k p t con rest b : gd_get streq b n = None -> walked dir rest b -> walked dir (MStruct n req k p t con :: rest) b
  | WalkedStruct dir here n req (k : bool) p t members inherited rest b z e :
      gd_get streq b n = Some (SInst z) ->
      here = (if k then normpath (path_join2 dir n) else dir) ->
      get_value z (lit "base_dir") = Some (VStr here) ->
      nested_string members z = Ok e ->
      (experiment members inherited = true -> entered members z) ->
      walked (path_join2 here e) rest b ->
      walked dir (MStruct n req k p t (Some (members, inherited)) :: rest) b.

  (** Nothing else has changed: the fields are the same on all levels. *)
  Inductive kept_all : list member -> list pystr -> sattrs -> sattrs -> Prop :=
  | KeptAll members changed a b :
      (forall x, ~ In x changed -> x <> lit "input_dim" -> ~ (exists req k p t con, In (MStruct x req k p t con) members) ->
         gd_get streq b x = gd_get streq a x) ->
      (forall m, In m members -> kept_member a b m) ->
      kept_all members changed a b
  with kept_member : sattrs -> sattrs -> member -> Prop :=
  | KeptField a b f : kept_member a b (MField f)
  | KeptUnset a b n req k p t con : gd_get streq a n = None -> gd_get streq b n = None -> kept_member a b (MStruct n req k p t con)
  | KeptStruct a b n req k p t members inherited x z :
      gd_get streq a n = Some (SInst x) -> gd_get streq b n = Some (SInst z) ->
      (experiment members inherited = true -> kept_all members inherited x z) ->
      (experiment members inherited = false -> forall y, ~ In y inherited -> gd_get streq z y = gd_get streq x y) ->
      kept_member a b (MStruct n req k p t (Some (members, inherited))).
End spec.

(** The Experiments of an Experiment: itself, and those that are in it on any level. *)
Inductive part (experiment : list member -> list pystr -> bool) : list member -> sattrs -> list member -> sattrs -> Prop :=
| PartSelf members a : part experiment members a members a
| PartIn members a n req k p t ms inherited x ms2 y :
    In (MStruct n req k p t (Some (ms, inherited))) members -> experiment ms inherited = true ->
    gd_get streq a n = Some (SInst x) -> part experiment ms x ms2 y -> part experiment members a ms2 y.

(** The instance keeps its model in the file [f] of the directory [d]. *)
Definition model_at (model_file : list member -> option pystr) (members : list member) (a : sattrs) (d f p : pystr) : Prop :=
  logs_to (LogClass members true (model_file members)) a d f p.
(** no model yet *)
Definition no_model (a : sattrs) : Prop := gd_get streq (own_attrs a) (lit "_model") = None.

(** Only Structs show in the directory. *)
Definition shows_structs (members : list member) (b : sattrs) : Prop := forall m, In m members ->
  match m with
  | MField f => f_transient f = true \/ (get_value b (f_name f) = None /\ f_required f = false)
  | MStruct n _ _ _ t con => t = false /\ plain n /\ exists ms inherited z cs, con = Some (ms, inherited) /\
      gd_get streq b n = Some (SInst z) /\ nested_string ms z = Ok (path_text false cs) /\ cs <> [] /\ Forall plain cs
  end.
