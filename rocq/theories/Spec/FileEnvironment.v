(** Terms for C48. *)
From Verif Require Export Model.PyStr.
Open Scope Z_scope.

(** [out] is [src] cropped or repeated to [n] rows. *)
Definition looped {Row} (src out : list Row) (n : nat) : Prop :=
  length out = n /\ forall i, (i < n)%nat -> nth_error out i = nth_error src (i mod length src).

(** The rows a part of a protocol asks for: as many as the steps, or all if there are none. *)
Definition block_of {Row} (read : pystr -> option Z -> result (list Row))
    (filters : list Row -> result (list Row)) (part : pystr * Z) (out : list Row) : Prop :=
  exists raw src, fst part <> [] /\
    read (fst part) (if 0 <? snd part then Some (snd part) else None) = Ok raw /\
    filters raw = Ok src /\ (snd part <= 0 \/ src <> []) /\
    looped src out (if 0 <? snd part then Z.to_nat (snd part) else length src).

(** A part that asks for at least one row. *)
Definition streamed {Row} (read : pystr -> option Z -> result (list Row))
    (filters : list Row -> result (list Row)) (part : pystr * Z) (out : list Row) : Prop :=
  0 <= snd part /\ out <> [] /\ block_of read filters part out.

(** What repeated calls of update see: all rows, then None, then all rows again. *)
Definition nth_update {Row} (rows : list Row) (k : nat) : option Row :=
  nth_error rows (k mod S (length rows)).

(** [p] is the part of [h] before its first dash. *)
Definition first_part (h p : pystr) : Prop :=
  ~ In dash p /\ (h = p \/ exists r, h = p ++ dash :: r).
