(** When a tile width suits a number of tilings. *)
From Verif Require Import Model.Tiles.
Open Scope R_scope.

(** the width given, or the default *)
Definition the_width (n : nat) (width : option R) : R :=
  match width with None => / INR n | Some w => w end.

(** the last tiling fits into the tiles of an axis *)
Definition fits (n : nat) (width : option R) : Prop :=
  0 < the_width n width /\
  1 / the_width n width - IZR (floor (1 / the_width n width)) < / INR n.
