(** What the KT estimator is meant to predict, in terms of the history only. *)
From Verif Require Export Spec.Prob.
Open Scope R_scope.

(** Total weight with which symbol [a] was seen. *)
Definition seen (a : Z) (evs : list event) : R :=
  Rsum (map ev_wt (filter (fun e => (ev_sym e =? a)%Z) evs)).

(** Total weight of the history. *)
Definition total (evs : list event) : R := Rsum (map ev_wt evs).

(** Additive smoothing with 1/|A| per symbol. *)
Definition kt_spec (A : list Z) (evs : list event) (a : Z) : R :=
  (1 / INR (length A) + seen a evs) / (1 + total evs).

(** Events with default history and weight, for a list of symbols. *)
Definition unit_events (xs : list Z) : list event := map (fun x => Event x [] 1) xs.

(** Number of occurrences. *)
Definition occ (a : Z) (xs : list Z) : nat := count_occ Z.eq_dec xs a.

(** The probability a coin with P(1) = theta gives to a binary sequence. *)
Definition coin_prob (theta : R) (xs : list Z) : R :=
  (1 - theta) ^ occ 0 xs * theta ^ occ 1 xs.

(** Hutter's sparse adaptive Dirichlet estimator: with t the total weight, d the number of
    different symbols seen and m = min(d, t), the escape weight is beta = m / (2 ln((t+1)/m));
    a symbol seen with weight c gets c/(t+beta), the others share beta/(t+beta) equally. *)
Definition distinct (evs : list event) : nat := length (nodup Z.eq_dec (map ev_sym evs)).

Definition escape (evs : list event) : R :=
  let m := Rmin (INR (distinct evs)) (total evs) in
  match evs with [] => 1 | _ => m / (2 * ln ((total evs + 1) / m)) end.

Definition sad_spec (n : nat) (evs : list event) (a : Z) : R :=
  if in_dec Z.eq_dec a (map ev_sym evs) then seen a evs / (total evs + escape evs)
  else escape evs / (INR (n - distinct evs) * (total evs + escape evs)).
