(** What the streams of pomdp.py are meant to be: pairs of an action (true: forward, false: turn
    around) and an observation that depends on the actions so far. *)
From Verif Require Export Model.Pomdp.
Open Scope Z_scope.

(** Facing away from the wall (true) or towards it, after some actions: every turn reverses. *)
Definition facing (d0 : bool) (acts : list bool) : bool :=
  xorb d0 (Nat.odd (length (filter negb acts))).

(** Distance from the wall: each step forward goes one away from it or one towards it. *)
Definition position (d0 : bool) (x0 : Z) (acts : list bool) : Z :=
  fold_left Z.add
    (map (fun i => if nth i acts false then (if facing d0 (firstn i acts) then 1 else -1) else 0)
         (seq 0 (length acts))) x0.

(** The observation after the actions [acts], for an object found in state [o]: in the hallway the
    direction, in the room whether one stands at the wall looking at it. *)
Definition sight (o : pobj) (acts : list bool) : bool :=
  match o with
  | OHallway h => facing (hw_dir h) acts
  | ORoom r => (position (rm_dir r) (rm_dist r) acts =? 0) && negb (facing (rm_dir r) acts)
  end.
Definition sights (o : pobj) (acts : list bool) : list bool :=
  map (fun i => sight o (firstn (S i) acts)) (seq 0 (length acts)).

(** The stream: action, observation, action, observation, ... *)
Definition interleave (acts obs : list bool) : list bool :=
  flat_map (fun ab => [fst ab; snd ab]) (combine acts obs).

(** The entries of [l] at the times when [ks] is [k]. *)
Definition at_times {A} (k : nat) (ks : list nat) (l : list A) : list A :=
  map snd (filter (fun p => Nat.eqb (fst p) k) (combine ks l)).

(** The first [n] numbers of the random generator. *)
Fixpoint draws {G} (random : G -> R * G) (n : nat) (g : G) : list R :=
  match n with O => [] | S n' => let (u, g') := random g in u :: draws random n' g' end.
Definition below (p u : R) : bool := if Rlt_dec u p then true else false.

(** As symbols for the predictors, True is 1 and False is 0. *)
Definition symbols (bs : list bool) : list Z := map (fun b : bool => if b then 1 else 0) bs.
