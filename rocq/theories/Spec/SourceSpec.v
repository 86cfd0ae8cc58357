(** Sources of bits that the predictors are meant to compete with: a coin whose bias changes over
    time, and a coin whose bias is chosen by the recent past through a context tree. *)
From Verif Require Export Spec.KTSpec Spec.CTWSpec.
Open Scope R_scope.

(** The probability that a coin with P(1) = theta shows [x]. *)
Definition coin (theta : R) (x : Z) : R := if (x =? 1)%Z then theta else 1 - theta.

(** A coin whose bias at time [t] is [theta t]. *)
Fixpoint drift_prob (theta : nat -> R) (t : nat) (xs : list Z) : R :=
  match xs with
  | [] => 1
  | x :: xs' => coin (theta t) x * drift_prob theta (S t) xs'
  end.

(** The bias differs from the bias one step before only at the times [cps]. *)
Definition changes_at (theta : nat -> R) (cps : list nat) : Prop :=
  forall t, theta (S t) <> theta t -> In (S t) cps.

(** Updates with bits, at weight one (the default). *)
Definition unit_bits (evs : list event) : Prop :=
  Forall (fun e => (ev_sym e = 0%Z \/ ev_sym e = 1%Z) /\ ev_wt e = 1) evs.

Section trees.
  (** The symbols of a context. *)
  Variable K : list Z.

  (** The leaves of a context tree, by their labels. *)
  Fixpoint leaves (u : list Z) (t : ctree) {struct t} : list (list Z) :=
    match t with
    | Leaf => [u]
    | Branch ts =>
        (fix go (ks : list Z) (ts : list ctree) {struct ts} : list (list Z) :=
           match ks, ts with
           | k :: ks', t' :: ts' => leaves (u ++ [k]) t' ++ go ks' ts'
           | _, _ => []
           end) K ts
    end.

  (** The leaf that a context [c] (most recent symbol first) leads to. *)
  Fixpoint leaf_at (u : list Z) (t : ctree) (c : list Z) {struct t} : list Z :=
    match t with
    | Leaf => u
    | Branch ts =>
        match c with
        | [] => u
        | k :: c' =>
            (fix go (ks : list Z) (ts : list ctree) {struct ts} : list Z :=
               match ks, ts with
               | k' :: ks', t' :: ts' => if (k =? k')%Z then leaf_at (u ++ [k]) t' c' else go ks' ts'
               | _, _ => u
               end) K ts
        end
    end.

  (** A tree source: each bit is a toss of the coin kept at the leaf its context leads to. *)
  Definition tree_source (theta : list Z -> R) (D : nat) (t : ctree) (evs : list event) : R :=
    Rprod (map (fun e => coin (theta (leaf_at [] t (recent D (ev_hist e)))) (ev_sym e)) evs).
End trees.

(** What it costs to learn the bias of a coin from [n] tosses, in nats. *)
Definition learn (n : nat) : R :=
  match n with O => 0 | S _ => / 2 * ln (INR n) + ln 2 end.
