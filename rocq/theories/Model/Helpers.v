(** helpers.py:19-87: arithmetic on time steps (Python integers, here non-negative). *)
From Verif Require Export Model.Py.
Open Scope Z_scope.

(** Python's [int.bit_length()]. *)
Definition bit_length (x : Z) : Z := if x =? 0 then 0 else Z.log2 (Z.abs x) + 1.

(** helpers.py:19-42 *)
Definition binary_boundary (t d : Z) : Z := t - Z.land t (Z.shiftl 1 d - 1).

(** helpers.py:44-70 *)
Definition at_partition_start (t d : Z) : bool := Z.land t (Z.shiftl 1 d - 1) =? 0.

(** helpers.py:72-87 *)
Definition mscb (t : Z) : Z := bit_length (Z.lxor t (t + 1)) - 1.
