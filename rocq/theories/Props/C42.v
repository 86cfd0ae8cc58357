(** C42: calculate_return. *)
From Coq Require Import Lra.
From Verif Require Import Model.Signals Proofs.SignalFacts.
Open Scope R_scope.

(** With a discount below one: the discounted sum of all rewards to come, whatever the horizon. *)
Theorem C42_discounted : forall (r : list R) (g : R) (horizon : option Z), g < 1 ->
  exists ret, calculate_return r (Some g) horizon = Ok ret /\ length ret = length r /\
    forall i, (i < length r)%nat ->
      nth i ret 0 = Rsum (map (fun k => g ^ k * nth (i + k) r 0) (seq 0 (length r - i))).
Proof. exact return_discounted. Qed.
Print Assumptions C42_discounted.

Theorem C42_bellman : forall (r : list R) (g : R) (horizon : option Z) (ret : list R), g < 1 ->
  calculate_return r (Some g) horizon = Ok ret ->
  forall i, (i < length r)%nat -> nth i ret 0 = nth i r 0 + g * nth (S i) ret 0.
Proof. exact return_bellman. Qed.
Print Assumptions C42_bellman.

(** Without a discount, or with one that is at least one: the sum of the next rewards, as many as
    the horizon. *)
Theorem C42_horizon : forall (r : list R) (gamma : option R) (h : Z),
  (forall g, gamma = Some g -> 1 <= g) -> (0 <= h)%Z ->
  exists ret, calculate_return r gamma (Some h) = Ok ret /\ length ret = length r /\
    forall i, (i < length r)%nat ->
      nth i ret 0 = Rsum (map (fun k => nth (i + k) r 0)
                               (seq 0 (Nat.min (Z.to_nat h) (length r - i)))).
Proof. exact return_horizon. Qed.
Print Assumptions C42_horizon.

(** The default arguments (a discount of one and no horizon) always raise. *)
Theorem C42_defaults_refuted : forall (r : list R) (gamma : option R), r <> [] ->
  (forall g, gamma = Some g -> 1 <= g) -> calculate_return r gamma None = Err TypeError.
Proof. exact return_no_horizon. Qed.
Print Assumptions C42_defaults_refuted.

Example C42_ex_discounted : calculate_return [0; 0; 1] (Some (1 / 2)) None = Ok [1 / 4; 1 / 2; 1].
Proof.
  unfold calculate_return. destruct (Rle_dec 1 (1 / 2)); [lra|].
  cbv -[Rplus Rmult Rdiv Rinv IZR]. apply f_equal; repeat (apply (f_equal2 (@cons R)); [lra|]); reflexivity.
Qed.
Example C42_ex_horizon :
  calculate_return [0; 1; 0; 1; 0; 1] (Some 1) (Some 3%Z) = Ok [1; 2; 1; 2; 1; 1].
Proof.
  unfold calculate_return. destruct (Rle_dec 1 1); [|lra].
  cbv -[Rplus Rmult Rdiv Rinv IZR]. apply f_equal; repeat (apply (f_equal2 (@cons R)); [lra|]); reflexivity.
Qed.
