(** The posterior over where the current segment began, in the mixture over binary temporal
    partitions. *)
From Verif Require Export Spec.PTWSpec.
Open Scope R_scope.

(** The start of the segment of partition [p] (of the span of length [2^(m+d)] beginning at [s]) that
    contains position [s + t]. *)
Fixpoint start_at (m d s : nat) (p : ptree) (t : nat) : nat :=
  match p, d with
  | Halves l r, S d' =>
      let half := (2 ^ (m + d'))%nat in
      if (t <? half)%nat then start_at m d' s l t else start_at m d' (s + half) r (t - half)
  | _, _ => s
  end.

Section posterior.
  Context {S : Type} (M : model S) (mk : nat -> S) (m : nat).

  (** The joint probability of the data [evs] and of the event that position [s + t] belongs to a
      segment beginning at [k]. Divided by the probability of [evs] it is the posterior probability
      of [k]. *)
  Definition posterior (d s : nat) (evs : list event) (t k : nat) : R :=
    Rsum (map (fun p => if Nat.eqb (start_at m d s p t) k
                        then (/ 2) ^ pcost d p * part_prob M mk m d s p evs else 0) (all_parts d)).

  (** The scores PTW.map compares: the starts of the open segments with the probability of the data if
      a segment begins there, weighted by [/ 2] for each change of segment. *)
  Fixpoint open_scores (d s : nat) (evs : list event) (w : R) : list (nat * R) :=
    match d with
    | O => [(s, w * seq_prob M (mk s) evs)]
    | Datatypes.S d' =>
        let half := (2 ^ (m + d'))%nat in
        if (length evs <=? half)%nat then open_scores d' s evs w
        else (s, w * seq_prob M (mk s) evs) ::
             open_scores d' (s + half) (skipn half evs)
                         (w * (/ 2 * ptw_prob M mk m d' s (firstn half evs)))
    end.
End posterior.
