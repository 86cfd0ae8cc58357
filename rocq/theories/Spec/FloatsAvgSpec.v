(** Bounds for Averager computed with rounding. *)
From Verif Require Export Spec.FloatsSpec Model.FloatsAverager.
Open Scope R_scope.

(** The size of the numbers in [n] updates of an average of [d] models. *)
Definition avg_size (n d : nat) (L c : R) : R := INR n * L + c + ln (INR d) + 4.
(** How far the logarithm of a weight, or of the sum of them, may be from the exact one. *)
Definition avg_drift (u : R) (n d : nat) (L c eps : R) : R :=
  INR n * (eps + u * avg_size n d L c) + u * (2 * avg_size n d L c + 4 * (INR d + 1) ^ 2).
(** How far a value returned may be from the exact one. *)
Definition avg_eps (u : R) (n d : nat) (L c eps : R) : R :=
  2 * avg_drift u n d L c eps + u * avg_size n d L c.

(** Predictions of the base model follow the exact ones, too. *)
Definition foresees {S1 S2} (M1 : model S1) (M2 : model S2) (ok : Z -> list Z -> Prop) (N : nat) (eps L c : R)
  (close : nat -> S1 -> S2 -> R -> Prop) : Prop :=
  forall n x y b a h, close n x y b -> (S n <= N)%nat -> ok a h ->
    exists lx ly, m_logp M1 x a h = Ok lx /\ m_logp M2 y a h = Ok ly /\ Rabs (lx - ly) <= eps /\
      - (INR (S n) * L + c) <= b + ly <= 0.

(** Members of two averagers, with their keys: those of the one, computed with rounding, follow those
    of the other. *)
Definition follow {S1 S2} (M1 : model S1) (M2 : model S2) (ok : Z -> list Z -> Prop) (N : nat) (eps L c : R)
  (close : Z -> nat -> S1 -> S2 -> R -> Prop) (ms1 : list (Z * S1)) (ms2 : list (Z * S2)) : Prop :=
  Forall2 (fun x y => fst x = fst y /\ tracks M1 M2 (snd x) (snd y) ok N eps L c (close (fst x))) ms1 ms2.

(** How far the value returned for a whole sequence may be from the exact one. *)
Definition avg_loss (u : R) (n d : nat) (L c eps : R) : R :=
  avg_drift u n d L c eps + 2 * INR n * (u * avg_size n d L c).

(** CTW_KT predictors of the given depths, with their keys *)
Definition depths (ds : list (Z * nat)) : list (Z * ctwkt) := map (fun kd => (fst kd, ctwkt_init (Z.of_nat (snd kd)))) ds.
