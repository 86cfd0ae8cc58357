(** What it means to select a Structure by values, and to have the same values. *)
From Verif Require Export Spec.NestedSpec Model.Records.
Open Scope Z_scope.

(** the value of an attribute, which may be the class [empty] *)
Definition has (inst : attrs) (n : pystr) (v : pval) : Prop :=
  gd_get streq inst n = Some (Some v) \/ (gd_get streq inst n = Some None /\ v = the_empty).
Definition lacks (inst : attrs) (n : pystr) : Prop := gd_get streq inst n = None.

(** the options given for a key: a list, or one value that is neither None nor a dictionary *)
Definition given (x : pval) (l : list pval) : Prop :=
  x = VList l \/ (l = [x] /\ match x with VStr _ | VInt _ | VBool _ | VOther _ => True | _ => False end).

(** How an attribute is shown: with its name, unless it is a field that shows none. *)
Definition shown_as (base : list field) (n : pystr) (v : pval) (t : pystr) : Prop :=
  exists u, value_text v u /\
    ((exists f, In f base /\ f_name f = n /\ f_keyword f = false) /\ t = u \/
     (forall f, In f base -> f_name f = n -> f_keyword f = true) /\ t = n ++ [dash] ++ u).

(** equality of texts is that of Python *)
Definition compares (peq : pval -> pval -> bool) : Prop :=
  (forall v, peq v v = true) /\ (forall s v, peq (VStr s) v = true <-> v = VStr s).

(** one of the values or texts asked for *)
Definition accepted (peq : pval -> pval -> bool) (base : list field) (inst : attrs) (k : pystr) (l : list pval) : Prop :=
  exists v, has inst k v /\ ((exists w, In w l /\ peq v w = true) \/ (exists t, shown_as base k v t /\ In (VStr t) l)).
(** one of the texts to be left out *)
Definition rejected (base : list field) (inst : attrs) (k : pystr) (l : list pval) : Prop :=
  exists v t, has inst k v /\ shown_as base k v t /\ In (VStr t) l.

(** A number in a field with a float, and conversions as Python has them *)
Definition floats (is_float : pystr -> bool) (to_float : pval -> option pval) : Prop :=
  forall v w, to_float v = Some w -> exists s, w = VOther s /\ is_float s = true.

(** a positive number of arguments *)
Definition sane_nargs (f : field) : Prop := forall k, f_nargs f = Some (NNum k) -> 0 <= k.

(** The entry of a field in a record: its value, or the text of a collection if texts are wanted. *)
Definition recorded (coll : bool) (f : field) (v w : pval) : Prop :=
  (coll = true /\ (f_class f = CList \/ f_class f = CKeyed) /\ exists u, value_text v u /\ w = VStr u) \/
  (~ (coll = true /\ (f_class f = CList \/ f_class f = CKeyed)) /\ w = v).
