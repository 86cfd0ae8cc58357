(** Files in directory trees. *)
From Verif Require Export Model.Walk Spec.Structures.
Open Scope Z_scope.

(** the file [f] is in the directory with the names [cs] *)
Inductive has_file : tree -> list pystr -> pystr -> Prop :=
| here files dirs f : In f files -> has_file (Tree files dirs) [] f
| there files dirs d t cs f : In (d, t) dirs -> has_file t cs f -> has_file (Tree files dirs) (d :: cs) f.

(** names are plain, and different in each directory *)
Inductive sound : tree -> Prop :=
| sound_tree files dirs : Forall plain (files ++ map fst dirs) -> NoDup (files ++ map fst dirs) -> sounds dirs -> sound (Tree files dirs)
with sounds : list (pystr * tree) -> Prop :=
| sounds_nil : sounds []
| sounds_cons d t ds : sound t -> sounds ds -> sounds ((d, t) :: ds).
