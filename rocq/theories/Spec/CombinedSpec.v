(** Sources that change over time, for any kind of source; and trees with coins whose biases change. *)
From Verif Require Export Spec.SourceSpec.
Open Scope R_scope.

(** [q t e]: the probability that the source, at time [t], gives to the symbol of [e] after the
    history of [e]. *)
Fixpoint source_prob (q : nat -> event -> R) (t : nat) (evs : list event) : R :=
  match evs with
  | [] => 1
  | e :: evs' => q t e * source_prob q (S t) evs'
  end.

(** The source is the same as one step before, except at the times [cps]. *)
Definition changes_only (q : nat -> event -> R) (cps : list nat) : Prop :=
  forall t, ~ In (S t) cps -> forall e, q (S t) e = q t e.

(** On the events [ok], a model that starts as [fresh] loses at most [price n] in [n] steps to every
    source of the class [src]. *)
Definition learns {S} (M : model S) (fresh : S) (ok : event -> Prop) (src : (event -> R) -> Prop) (price : nat -> R) : Prop :=
  forall r evs, src r -> Forall ok evs -> 0 < Rprod (map r evs) ->
    - ln (seq_prob M fresh evs) <= - ln (Rprod (map r evs)) + price (length evs).

(** A bit, of weight one, whose history is over [K]. *)
Definition bit_after (K : list Z) (e : event) : Prop :=
  ((ev_sym e = 0%Z \/ ev_sym e = 1%Z) /\ ev_wt e = 1) /\ incl (ev_hist e) K.

(** The tree sources of depth at most [D], with at most [L] leaves and of cost at most [C]. *)
Definition tree_toss (K : list Z) (D : nat) (theta : list Z -> R) (t : ctree) (e : event) : R :=
  coin (theta (leaf_at K [] t (recent D (ev_hist e)))) (ev_sym e).
Definition tree_sources (K : list Z) (D L C : nat) (r : event -> R) : Prop :=
  exists theta t, is_tree K D t /\ (length (leaves K [] t) <= L)%nat /\ (cost D t <= C)%nat /\
    (forall v, 0 <= theta v <= 1) /\ forall e, r e = tree_toss K D theta t e.

(** A tree with a coin at every leaf, whose bias for the [i]-th toss at leaf [v] is [theta v i]. *)
Fixpoint tossed (K : list Z) (D : nat) (theta : list Z -> nat -> R) (t : ctree) (before evs : list event) : R :=
  match evs with
  | [] => 1
  | e :: evs' =>
      let leaf e := leaf_at K [] t (recent D (ev_hist e)) in
      let earlier := filter (fun e' => if list_eq_dec Z.eq_dec (leaf e') (leaf e) then true else false) before in
      coin (theta (leaf e) (length earlier)) (ev_sym e) * tossed K D theta t (before ++ [e]) evs'
  end.
