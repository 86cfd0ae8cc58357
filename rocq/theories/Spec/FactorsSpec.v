(** Sources that take turns: symbol number [k] comes from source number [k mod n]. *)
From Verif Require Export Spec.LearnSpec Spec.SeqSpec.
Open Scope R_scope.

Definition turn (n : nat) (e : event) : nat := (length (ev_hist e) mod n)%nat.

(** The sources stay the same. *)
Definition in_turn (n : nat) (r : nat -> event -> R) (e : event) : R := r (turn n e) e.

(** The sources change: [q i j e] is the probability that source [i] gives to the symbol of [e], when [j]
    symbols have come from that source before. *)
Fixpoint turns (n : nat) (q : nat -> nat -> event -> R) (before evs : list event) : R :=
  match evs with
  | [] => 1
  | e :: evs' =>
      let earlier := filter (fun e' => turn n e' =? turn n e)%nat before in
      q (turn n e) (length earlier) e * turns n q (before ++ [e]) evs'
  end.

(** How many of the symbols come from source [i]. *)
Definition share (n i : nat) (evs : list event) : nat := length (filter (fun e => turn n e =? i)%nat evs).
