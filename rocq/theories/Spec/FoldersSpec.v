(** What make_dirs is to do. *)
From Verif Require Export Model.Folders Spec.Structures.
Open Scope Z_scope.

(** the places above [c] and [c] itself *)
Definition on_way (c d : place) : Prop := exists rest, c = d ++ rest.
(** the root is there, and all that is above something is a directory *)
Definition tree (fs : folders) : Prop :=
  gd_get place_eq fs [] = Some true /\
  forall c x, gd_mem place_eq fs (c ++ [x]) = true -> gd_get place_eq fs c = Some true.
