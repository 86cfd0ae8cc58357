(** Words of a command line. *)
From Verif Require Export Model.SmallHelpers Model.LogData Spec.UtilNames Spec.Structures.
Open Scope Z_scope.

(** a text that the shell, or [split], takes for one word *)
Definition one_word (uspace : Z -> bool) (s : pystr) : Prop := s <> [] /\ forall c, In c s -> space uspace c = false.
