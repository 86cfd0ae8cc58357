(** What Context Tree Weighting is meant to compute, in terms of the whole event sequence. *)
From Verif Require Export Spec.Prob.
Open Scope R_scope.

(** The context of a history: its last [d] symbols, most recent first, padded with zeros on
    the old side. *)
Definition recent (d : nat) (h : list Z) : list Z := firstn d (rev h ++ repeat 0%Z d).

Section spec.
  Context {S : Type} (M : model S) (fresh : S).
  (** [ctx h] is the context of history [h], most recent symbol first. *)
  Variable ctx : list Z -> list Z.
  (** The symbols that can occur in a context. *)
  Variable K : list Z.

  (** Does the context of the event start with the label [u]? *)
  Definition matches (u : list Z) (e : event) : bool :=
    if list_eq_dec Z.eq_dec (firstn (length u) (ctx (ev_hist e))) u then true else false.

  (** The events whose context passes through the tree node labelled [u], in order. *)
  Definition sel (u : list Z) (evs : list event) : list event := filter (matches u) evs.

  (** The probability the base model gives to the events at node [u]. *)
  Definition node_prob (u : list Z) (evs : list event) : R := seq_prob M fresh (sel u evs).

  (** The weighted probability of the node labelled [u], with [d] levels below it. *)
  Fixpoint ctw_prob (d : nat) (u : list Z) (evs : list event) : R :=
    match d with
    | O => node_prob u evs
    | Datatypes.S d' =>
        / 2 * node_prob u evs + / 2 * Rprod (map (fun k => ctw_prob d' (u ++ [k]) evs) K)
    end.

  (** Context trees: a leaf, or one subtree for each context symbol in [K]. *)
  Inductive ctree := Leaf | Branch (ts : list ctree).

  (** The probability the model of tree [t] rooted at label [u] assigns: the product over its
      leaves of the base model's probability of the events routed to the leaf. *)
  Fixpoint tree_prob (u : list Z) (t : ctree) (evs : list event) {struct t} : R :=
    match t with
    | Leaf => node_prob u evs
    | Branch ts =>
        (fix go (ks : list Z) (ts : list ctree) {struct ts} : R := match ks, ts with
                         | k :: ks', t' :: ts' => tree_prob (u ++ [k]) t' evs * go ks' ts'
                         | _, _ => 1
                         end) K ts
    end.

  (** Trees of depth at most [d] with exactly one subtree per context symbol. *)
  Inductive is_tree : nat -> ctree -> Prop :=
  | is_leaf d : is_tree d Leaf
  | is_branch d ts : length ts = length K -> Forall (is_tree d) ts -> is_tree (Datatypes.S d) (Branch ts).

  (** The number of bits to describe [t] given the maximal depth [d]: one bit for each node
      that is not at the maximal depth. *)
  Fixpoint cost (d : nat) (t : ctree) : nat :=
    match d, t with
    | O, _ => 0
    | Datatypes.S d', Leaf => 1
    | Datatypes.S d', Branch ts => 1 + list_sum (map (cost d') ts)
    end.

  (** All lists of length [n] over [l]. *)
  Fixpoint tuples {A} (n : nat) (l : list A) : list (list A) :=
    match n with
    | O => [[]]
    | Datatypes.S n' => flat_map (fun x => map (cons x) (tuples n' l)) l
    end.

  (** All trees of depth at most [d]. *)
  Fixpoint all_trees (d : nat) : list ctree :=
    match d with
    | O => [Leaf]
    | Datatypes.S d' => Leaf :: map Branch (tuples (length K) (all_trees d'))
    end.
End spec.
