(** The class of memoryless sources over an alphabet, and what it costs to learn one. *)
From Verif Require Export Spec.CombinedSpec Spec.KTSpec.
Open Scope R_scope.

(** [theta] gives probabilities to the symbols of [A]. *)
Definition distribution (A : list Z) (theta : Z -> R) : Prop :=
  (forall a, 0 <= theta a) /\ Rsum (map theta A) = 1.

(** The source draws each symbol from the same distribution, whatever the history. *)
Definition memoryless (A : list Z) (r : event -> R) : Prop :=
  exists theta, distribution A theta /\ forall e, r e = theta (ev_sym e).

(** A symbol of [A], of weight one. *)
Definition symbol_of (A : list Z) (e : event) : Prop := In (ev_sym e) A /\ ev_wt e = 1.

(** What learning a distribution over [k] symbols costs KT in [n] steps, *)
Definition learn_any (k n : nat) : R :=
  match n with O => 0 | S _ => (INR k - 1) / 2 * ln (INR n) + INR k * ln (INR k) + / 8 end.

(** and SAD. *)
Definition sad_learn (k n : nat) : R :=
  match n with O => 0 | S _ => INR k * (ln (INR k) + / 2 * ln (INR n) + 3 / 2 * ln (1 + ln (INR n)) + 4) end.

(** A source at every leaf of a tree of contexts; the tree has depth at most [D], at most [L] leaves and
    cost at most [C], and the sources at the leaves are of the class [src]. *)
Definition tree_of (src : (event -> R) -> Prop) (K : list Z) (D L C : nat) (r : event -> R) : Prop :=
  exists q t, is_tree K D t /\ (length (leaves K [] t) <= L)%nat /\ (cost D t <= C)%nat /\
    (forall v, src (q v)) /\ forall e, r e = q (leaf_at K [] t (recent D (ev_hist e))) e.
