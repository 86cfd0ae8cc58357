(** Trees with a source at every leaf, which changes at times of its own. *)
From Verif Require Export Spec.LearnSpec.
Open Scope R_scope.

(** [q v i e]: the probability that the source at leaf [v] gives to the symbol of [e], when [i] symbols
    have come from that leaf before. *)
Fixpoint emitted (K : list Z) (D : nat) (q : list Z -> nat -> event -> R) (t : ctree) (before evs : list event) : R :=
  match evs with
  | [] => 1
  | e :: evs' =>
      let leaf e := leaf_at K [] t (recent D (ev_hist e)) in
      let earlier := filter (fun e' => if list_eq_dec Z.eq_dec (leaf e') (leaf e) then true else false) before in
      q (leaf e) (length earlier) e * emitted K D q t (before ++ [e]) evs'
  end.
