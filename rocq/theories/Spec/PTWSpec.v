(** Partition tree weighting, independently of the code: the recursion on segments, binary
    temporal partitions, and feeding a sequence to a model whose factory may return a
    different model each time it is called. *)
From Verif Require Export Spec.Prob.
Open Scope R_scope.

(** Feeding events one after another; [upd t] is the update call made at time [t]. *)
Fixpoint feed {T} (upd : nat -> T -> Z -> list Z -> R -> result (T * R)) (t : nat) (s : T)
  (evs : list event) : result (T * R) :=
  match evs with
  | [] => Ok (s, 0)
  | e :: evs' =>
      do (s1, l) <- upd t s (ev_sym e) (ev_hist e) (ev_wt e);
      do (s2, ls) <- feed upd (S t) s1 evs';
      Ok (s2, l + ls)
  end.

(** The smallest [d] such that [n] symbols fit in [2^d] blocks of length [2^m]. *)
Definition levels (m n : nat) : nat := Nat.log2_up n - m.

Section ptw_spec.
  Context {S : Type} (M : model S).
  (** [mk t]: the base model that a segment beginning at time [t] starts from. *)
  Variable mk : nat -> S.
  (** Segments of length [2^m] are not divided. *)
  Variable m : nat.

  (** The recursion: segment of length [2^(m+d)] starting at time [s], of which [evs] was seen. *)
  Fixpoint ptw_prob (d s : nat) (evs : list event) : R :=
    match d with
    | O => seq_prob M (mk s) evs
    | Datatypes.S d' =>
        let half := (2 ^ (m + d'))%nat in
        / 2 * seq_prob M (mk s) evs +
        / 2 * (ptw_prob d' s (firstn half evs) * ptw_prob d' (s + half) (skipn half evs))
    end.
End ptw_spec.

(** Binary temporal partitions of a segment. *)
Inductive ptree := Whole | Halves (l r : ptree).

Section partitions.
  Context {S : Type} (M : model S) (mk : nat -> S) (m : nat).

  (** The partition probability: independent base models on the segments. *)
  Fixpoint part_prob (d s : nat) (p : ptree) (evs : list event) : R :=
    match p, d with
    | Halves l r, Datatypes.S d' =>
        let half := (2 ^ (m + d'))%nat in
        part_prob d' s l (firstn half evs) * part_prob d' (s + half) r (skipn half evs)
    | _, _ => seq_prob M (mk s) evs
    end.
End partitions.

(** Partitions of depth at most [d], and the bits needed to describe them. *)
Fixpoint is_part (d : nat) (p : ptree) : Prop :=
  match p, d with
  | Whole, _ => True
  | Halves l r, S d' => is_part d' l /\ is_part d' r
  | Halves _ _, O => False
  end.

Fixpoint pcost (d : nat) (p : ptree) : nat :=
  match d, p with
  | O, _ => 0
  | S _, Whole => 1
  | S d', Halves l r => 1 + pcost d' l + pcost d' r
  end.

Fixpoint all_parts (d : nat) : list ptree :=
  match d with
  | O => [Whole]
  | S d' => Whole :: flat_map (fun l => map (Halves l) (all_parts d')) (all_parts d')
  end.

(** The segments of a partition, as (start, length) pairs. *)
Fixpoint segments (m d s : nat) (p : ptree) : list (nat * nat) :=
  match p, d with
  | Halves l r, S d' =>
      segments m d' s l ++ segments m d' (s + 2 ^ (m + d')) r
  | _, _ => [(s, 2 ^ (m + d))%nat]
  end.

(** The probability an update call returns (0 if it raises). *)
Definition upd_prob {T} (upd : T -> Z -> list Z -> R -> result (T * R)) (s : T) (a : Z) (h : list Z)
  (w : R) : R :=
  match upd s a h w with Ok (_, l) => exp l | Err _ => 0 end.
