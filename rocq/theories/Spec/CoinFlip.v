(** What a coin with change points should do. *)
From Verif Require Export Model.CoinFlip.
Open Scope Z_scope.

(** the [n]-th number drawn from a generator *)
Fixpoint draw {G} (random : G -> R * G) (n : nat) (g : G) : R :=
  match n with O => fst (random g) | S n' => draw random n' (snd (random g)) end.

(** the changes up to time [t] *)
Definition changes (cps : list Z) (t : Z) : nat := length (filter (fun c => c <=? t) cps).

(** the probability in force at time [t]: one further along (in a circle) with every change *)
Definition in_force (probs : list R) (cps : list Z) (t : Z) : R :=
  nth (changes cps t mod length probs) probs 0%R.

(** the change points up to the first that is not after its predecessor *)
Fixpoint increasing_part (last : Z) (cps : list Z) : list Z :=
  match cps with
  | [] => []
  | c :: cps' => if last <? c then c :: increasing_part c cps' else []
  end.

Definition schedule {Seed} (c : Coin Seed) : list Z :=
  match cf_changepoints c with None => [] | Some cps => cps end.
