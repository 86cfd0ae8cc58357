(** What the functions on paths and headers are to do. *)
From Verif Require Export Model.Dirs Spec.Structures.
Open Scope Z_scope.

(** the names in a path *)
Definition pieces (p : pystr) : list pystr := filter (fun c => negb (streq c [] || streq c [dot])) (split slash p).
(** [sep] is in [s] once, after [pre] *)
Definition once (sep pre s : pystr) : Prop := forall a b, s = a ++ sep ++ b -> a = pre.
