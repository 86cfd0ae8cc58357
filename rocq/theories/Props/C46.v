(** C46: coins with change points. *)
From Verif Require Import Spec.CoinFlip Proofs.CoinFlipFacts.
Open Scope Z_scope.

(** If the change points are not negative and increase, the value at time t is 1 exactly when the
    t-th number after seeding is at least the probability in force, which moves on with every
    change point up to t. *)
Theorem C46_schedule_partial : forall (Seed G : Type) (seeded : Seed -> G) (random : G -> R * G)
  (c : Coin Seed) terminal, cf_probabilities c <> [] ->
  (forall x, In x (schedule c) -> 0 <= x) ->
  (forall i, (S i < length (schedule c))%nat -> nth i (schedule c) 0 < nth (S i) (schedule c) 0) ->
  exists vs f g, get_data seeded random c terminal = Ok (vs, f, g) /\
    length vs = Z.to_nat terminal /\
    forall i, (i < length vs)%nat -> nth i vs 0 =
      if Rle_dec (in_force (cf_probabilities c) (schedule c) (Z.of_nat i))
                 (draw random i (seeded (cf_seed c))) then 1 else 0.
Proof. exact @schedule_followed. Qed.
Print Assumptions C46_schedule_partial.
Example C46_ex : in_force [2; 7]%R [16; 32; 64] 15 = 2%R /\ in_force [2; 7]%R [16; 32; 64] 16 = 7%R /\
  in_force [2; 7]%R [16; 32; 64] 40 = 2%R /\
  forall i, (S i < 3)%nat -> nth i [16; 32; 64] 0 < nth (S i) [16; 32; 64] 0.
Proof. repeat split; try reflexivity. intros [|[|i]] H; cbn; lia. Qed.

(** In general the change points count up to the first that is not after its predecessor. *)
Theorem C46_any_schedule : forall (Seed G : Type) (seeded : Seed -> G) (random : G -> R * G)
  (c : Coin Seed), cf_probabilities c <> [] -> forall terminal,
  exists vs f g, get_data seeded random c terminal = Ok (vs, f, g) /\
    length vs = Z.to_nat terminal /\
    forall i, (i < length vs)%nat -> nth i vs 0 =
      if Rle_dec (in_force (cf_probabilities c) (increasing_part (-1) (schedule c)) (Z.of_nat i))
                 (draw random i (seeded (cf_seed c))) then 1 else 0.
Proof. exact @data_spec. Qed.
Print Assumptions C46_any_schedule.

Theorem C46_unordered_refuted : forall (Seed G : Type) (seeded : Seed -> G) (random : G -> R * G)
  (s : Seed), (forall g, 0 <= fst (random g) < 1)%R ->
  exists c : Coin Seed, cf_seed c = s /\ schedule c = [2; 1] /\
    in_force (cf_probabilities c) (schedule c) 2 = 1%R /\
    exists vs f g, get_data seeded random c 3 = Ok (vs, f, g) /\ nth 2 vs 0 = 1.
Proof. exact @unordered_stuck. Qed.
Print Assumptions C46_unordered_refuted.

(** Calling the object step by step gives the same values, whatever the generator did before. *)
Theorem C46_calls : forall (Seed G : Type) (seeded : Seed -> G) (random : G -> R * G)
  (c : Coin Seed), cf_probabilities c <> [] -> forall n f g, fl_timestep f < 0 ->
  exists vs f' g', calls seeded random c n f g = Ok (vs, f', g') /\ length vs = n /\
    (n <> O -> fl_timestep f' = Z.of_nat n - 1) /\
    forall i, (i < n)%nat -> nth i vs 0 =
      if Rle_dec (in_force (cf_probabilities c) (increasing_part (-1) (schedule c)) (Z.of_nat i))
                 (draw random i (seeded (cf_seed c))) then 1 else 0.
Proof. exact @calls_fresh. Qed.
Print Assumptions C46_calls.

(** The probability is that of a zero, although documented as that of a one. *)
Theorem C46_bias_refuted : forall (Seed G : Type) (seeded : Seed -> G) (random : G -> R * G)
  (s : Seed) terminal vs f g, (forall g, 0 <= fst (random g) < 1)%R ->
  get_data seeded random {| cf_probabilities := [1%R]; cf_seed := s; cf_changepoints := None |}
    terminal = Ok (vs, f, g) -> Forall (fun v => v = 0) vs.
Proof. exact @bias_reversed. Qed.
Print Assumptions C46_bias_refuted.

(** After get_data the object cannot be called any more. *)
Theorem C46_call_after_refuted : forall (Seed G : Type) (seeded : Seed -> G) (random : G -> R * G)
  (c : Coin Seed), cf_probabilities c <> [] -> forall terminal vs f g g', 0 < terminal ->
  get_data seeded random c terminal = Ok (vs, f, g) ->
  exists e, call seeded random c f g' = Err e.
Proof. exact @call_after. Qed.
Print Assumptions C46_call_after_refuted.
