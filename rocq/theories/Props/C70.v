(** C70: the streams of pomdp.py, for any random generator. [random] is random.random() and [choice n]
    the index random.choice picks among n. *)
From Coq Require Import Lra.
From Verif Require Import Spec.PomdpSpec Proofs.PomdpFacts.
Open Scope Z_scope.

(** A stream of any length from a new iterator over a Hallway or Room in any state: every action is a
    fresh draw, and every observation the one these actions lead to. *)
Theorem C70_stream : forall (G : Type) (random : G -> R * G) m n o g, (m <= 2 * n)%nat ->
  exists o' f' g', gen_take random m o Begin g =
    (firstn m (let acts := map (below (p_of o)) (draws random n g) in interleave acts (sights o acts)), o', f', g').
Proof. exact @gen_stream. Qed.
Print Assumptions C70_stream.

(** In the hallway the observation is decided by the one before and the last action. *)
Theorem C70_hallway_context : forall p acts i a,
  (i < length acts)%nat -> nth_error acts i = Some a -> (0 < i)%nat ->
  nth_error (sights (OHallway (new_hallway p)) acts) i =
  option_map (fun before => xorb before (negb a)) (nth_error (sights (OHallway (new_hallway p)) acts) (i - 1)).
Proof. exact hallway_context. Qed.
Print Assumptions C70_hallway_context.
Example C70_hallway_ex : (2 < length [true; false; false; true])%nat /\
  sights (OHallway (new_hallway (19 / 20))) [true; false; false; true] = [true; false; true; true].
Proof. split; [cbn; repeat constructor|reflexivity]. Qed.

(** In the room it is not: whatever the number [k] of recent pairs, there are two pasts with the same
    last [k] pairs after which the same action leads to different observations. *)
Theorem C70_room_context_refuted : forall p k, exists xs ys,
  let o := ORoom (new_room p) in
  skipn (length xs - k) (combine xs (sights o xs)) = skipn (length ys - k) (combine ys (sights o ys)) /\
  length (skipn (length xs - k) xs) = k /\
  sight o (xs ++ [true]) = true /\ sight o (ys ++ [true]) = false.
Proof. exact room_no_context. Qed.
Print Assumptions C70_room_context_refuted.

(** The wall does not stop anyone: looking at it from distance zero, k steps forward lead k behind it. *)
Theorem C70_room_wall_refuted : forall p,
  sight (ORoom (new_room p)) [false] = true /\ sight (ORoom (new_room p)) [false; true] = false /\
  forall k, position true 0 (false :: repeat true k) = - Z.of_nat k.
Proof. exact room_walks_out. Qed.
Print Assumptions C70_room_wall_refuted.

(** Switcher: a stream of whole pairs; at each time one of the modes makes the pair; and what each
    object shows is what it would show if its actions had not been interrupted. An object listed twice
    is one object. *)
Theorem C70_switcher : forall (G : Type) (random : G -> R * G) choice n p objs modes g,
  (forall n g, (0 < n)%nat -> (fst (choice n g) < n)%nat) ->
  modes <> [] -> Forall (fun m => (m < length objs)%nat) modes ->
  exists ks acts obs s' sf' g', length ks = n /\ length acts = n /\ length obs = n /\
    Forall (fun m => In m modes) ks /\
    sw_take random choice (2 * n) (Switcher p objs modes) SBegin g = Ok (interleave acts obs, s', sf', g') /\
    (forall m o, nth_error objs m = Some o -> at_times m ks obs = sights o (at_times m ks acts)).
Proof. exact @switcher_stream. Qed.
Print Assumptions C70_switcher.

(** With a switching probability of zero the stream is that of one mode. *)
Theorem C70_switcher_never : forall (G : Type) (random : G -> R * G) choice n p objs modes g,
  (forall n g, (0 < n)%nat -> (fst (choice n g) < n)%nat) ->
  modes <> [] -> Forall (fun m => (m < length objs)%nat) modes ->
  (forall g, 0 <= fst (random g))%R -> (p <= 0)%R -> (0 < n)%nat ->
  exists m o acts s' sf' g', In m modes /\ nth_error objs m = Some o /\ length acts = n /\
    sw_take random choice (2 * n) (Switcher p objs modes) SBegin g = Ok (interleave acts (sights o acts), s', sf', g').
Proof. exact @switcher_never. Qed.
Print Assumptions C70_switcher_never.

(** A generator that counts, and two modes. *)
Definition C70_random (g : nat) : R * nat := (if Nat.even g then 0%R else (1 / 2)%R, S g).
Definition C70_choice (n g : nat) : nat * nat := (Nat.modulo g n, S g).
Definition C70_objs : list pobj := [ORoom (new_room (19 / 20)); OHallway (new_hallway (1 / 4))].
Example C70_switcher_ex :
  (forall n g, (0 < n)%nat -> (fst (C70_choice n g) < n)%nat) /\ [0%nat; 1%nat] <> [] /\
  Forall (fun m => (m < length C70_objs)%nat) [0%nat; 1%nat] /\ (forall g, 0 <= fst (C70_random g))%R.
Proof.
  split; [intros n g H; apply Nat.mod_upper_bound; intros ->; inversion H|].
  split; [discriminate|]. split; [repeat constructor|]. intros g. cbn. destruct (Nat.even g); lra.
Qed.
