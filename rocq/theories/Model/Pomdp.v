(** pomdp.py: the generators Hallway, Room and Switcher of the notebook "FMN for POMDPs". *)
From Coq Require Export Reals.
From Verif Require Export Model.Py.
Open Scope Z_scope.

(** pomdp.py:3-6 *)
Record hallway := Hallway { hw_p : R; hw_dir : bool }.
(** pomdp.py:18-22 *)
Record room := Room { rm_p : R; rm_dir : bool; rm_dist : Z }.

(** pomdp.py:4, 19: the constructors with their defaults *)
Definition new_hallway (p_forward : R) : hallway := Hallway p_forward true.
Definition new_room (p_forward : R) : room := Room p_forward true 0.

(** An object that can be a mode. *)
Inductive pobj := OHallway (h : hallway) | ORoom (r : room).

(** Where a generator made by [iter(obj)] is suspended (pomdp.py:8-15, 24-31): before its first line,
    at the first yield (with its local [action]), or at the second. The other state is the object's. *)
Inductive frame := Begin | Acted (action : bool) | Seen.

Section pomdp.
  (** the module random: [random.random()], and the index of [random.choice] among [n] > 0 *)
  Context {G : Type} (random : G -> R * G) (choice : nat -> G -> nat * G).

  (** [random.random() < p] *)
  Definition flip (p : R) (g : G) : bool * G :=
    let (u, g') := random g in (if Rlt_dec u p then true else false, g').

  Definition p_of (o : pobj) : R := match o with OHallway h => hw_p h | ORoom r => rm_p r end.

  (** pomdp.py:12-15 / 28-31, after the first yield: what is done to the object and yielded *)
  Definition observe (o : pobj) (action : bool) : pobj * bool :=
    match o with
    | OHallway (Hallway p dir) =>
        let dir := if action then dir else negb dir in
        (OHallway (Hallway p dir), dir)
    | ORoom (Room p dir dist) =>
        let '(dir, dist) := if action then (dir, dist + (if dir then 1 else -1)) else (negb dir, dist) in
        (ORoom (Room p dir dist), if dist =? 0 then negb dir else false)
    end.

  (** one [next()] of such a generator: the object, the generator and the random state afterwards *)
  Definition gen_next (o : pobj) (f : frame) (g : G) : bool * pobj * frame * G :=
    match f with
    | Begin | Seen => let (action, g') := flip (p_of o) g in (action, o, Acted action, g')
    | Acted action => let (o', b) := observe o action in (b, o', Seen, g)
    end.

  (** [list(itertools.islice(obj, n))] from that generator *)
  Fixpoint gen_take (n : nat) (o : pobj) (f : frame) (g : G) : list bool * pobj * frame * G :=
    match n with
    | O => ([], o, f, g)
    | S n' =>
        let '(b, o, f, g) := gen_next o f g in
        let '(bs, o, f, g) := gen_take n' o f g in
        (b :: bs, o, f, g)
    end.

  (** Switcher: the objects in memory, the addresses of [modes], and the probability *)
  Record switcher := Switcher { sw_p : R; sw_objs : list pobj; sw_modes : list nat }.

  (** where Switcher is suspended (pomdp.py:33-39): not started, or after the first or the second of
      its yields, with the generator [m] (its object's address and its frame) *)
  Inductive sframe := SBegin | SMid (m : nat) (f : frame) | SEnd (m : nat) (f : frame).

  (** [iter(random.choice(modes))]; IndexError if there are none *)
  Definition pick (modes : list nat) (g : G) : result (nat * frame * G) :=
    match modes with
    | [] => Err IndexError
    | _ => let (i, g') := choice (length modes) g in
           match nth_error modes i with Some m => Ok (m, Begin, g') | None => Err IndexError end
    end.

  (** [m.send(None)] *)
  Definition send (s : switcher) (m : nat) (f : frame) (g : G) : result (bool * switcher * frame * G) :=
    match nth_error (sw_objs s) m with
    | Some o =>
        let '(b, o', f', g') := gen_next o f g in
        Ok (b, Switcher (sw_p s) (list_set (sw_objs s) m o') (sw_modes s), f', g')
    | None => Err IndexError
    end.

  (** the top of the loop, pomdp.py:36-38 *)
  Definition sw_loop (s : switcher) (m : nat) (f : frame) (g : G) : result (bool * switcher * sframe * G) :=
    let (hit, g) := flip (sw_p s) g in
    do (m, f, g) <- (if hit then pick (sw_modes s) g else Ok (m, f, g));
    do (b, s, f, g) <- send s m f g;
    Ok (b, s, SMid m f, g).

  (** one [next()] of Switcher, pomdp.py:33-40 *)
  Definition sw_next (s : switcher) (sf : sframe) (g : G) : result (bool * switcher * sframe * G) :=
    match sf with
    | SBegin => do (m, f, g) <- pick (sw_modes s) g; sw_loop s m f g
    | SMid m f => do (b, s, f, g) <- send s m f g; Ok (b, s, SEnd m f, g)
    | SEnd m f => sw_loop s m f g
    end.

  (** [list(itertools.islice(Switcher(...), n))] *)
  Fixpoint sw_take (n : nat) (s : switcher) (sf : sframe) (g : G)
    : result (list bool * switcher * sframe * G) :=
    match n with
    | O => Ok ([], s, sf, g)
    | S n' =>
        do (b, s, sf, g) <- sw_next s sf g;
        do (bs, s, sf, g) <- sw_take n' s sf g;
        Ok (b :: bs, s, sf, g)
    end.
End pomdp.
