(** Events of a sequence of symbols observed one after another after a history. *)
From Verif Require Export Spec.Prob.
Open Scope R_scope.

(** [update(x_0, h, w), update(x_1, h + [x_0], w), ...] *)
Fixpoint events_from (hist seq : list Z) (w : R) : list event :=
  match seq with
  | [] => []
  | x :: seq' => Event x hist w :: events_from (hist ++ [x]) seq' w
  end.

(** All sequences of length [n] over an alphabet. *)
Fixpoint words (A : list Z) (n : nat) : list (list Z) :=
  match n with
  | O => [[]]
  | S n' => flat_map (fun a => map (cons a) (words A n')) A
  end.

(** The events a Factored model of [k] factors sends to factor [i]; it sends weight 1. *)
Definition routed (k i : nat) (evs : list event) : list event :=
  map (fun e => Event (ev_sym e) (ev_hist e) 1)
      (filter (fun e => Nat.eqb (Nat.modulo (length (ev_hist e)) k) i) evs).

(** The sum of the values log_predict returns along a growing history, for a fixed model. *)
Fixpoint sum_logp {S} (M : model S) (s : S) (hist seq : list Z) : result R :=
  match seq with
  | [] => Ok 0
  | x :: seq' => do l <- m_logp M s x hist; do ls <- sum_logp M s (hist ++ [x]) seq'; Ok (l + ls)
  end.
