(** Python dictionaries with any type of keys, in insertion order; [keq] is Python's equality of
    keys. *)
From Verif Require Export Model.Py.
Open Scope Z_scope.

Section gdict.
  Context {K V : Type} (keq : K -> K -> bool).

  (** [d.get(k)] *)
  Fixpoint gd_get (d : list (K * V)) (k : K) : option V :=
    match d with
    | [] => None
    | (k', v) :: d' => if keq k' k then Some v else gd_get d' k
    end.

  (** [d[k] = v] *)
  Fixpoint gd_set (d : list (K * V)) (k : K) (v : V) : list (K * V) :=
    match d with
    | [] => [(k, v)]
    | (k', v') :: d' => if keq k' k then (k', v) :: d' else (k', v') :: gd_set d' k v
    end.

  (** [k in d] *)
  Definition gd_mem (d : list (K * V)) (k : K) : bool :=
    match gd_get d k with Some _ => true | None => false end.

  (** [d[k]] *)
  Definition gd_lookup (d : list (K * V)) (k : K) : result V :=
    match gd_get d k with Some v => Ok v | None => Err KeyError end.

  (** [d.pop(k)] of a key that is there *)
  Fixpoint gd_pop (d : list (K * V)) (k : K) : list (K * V) :=
    match d with
    | [] => []
    | (k', v) :: d' => if keq k' k then d' else (k', v) :: gd_pop d' k
    end.

  (** [dict(pairs)]: later values replace earlier ones, the key keeps its place. *)
  Definition gd_of (pairs : list (K * V)) : list (K * V) :=
    fold_left (fun d p => gd_set d (fst p) (snd p)) pairs [].
End gdict.

(** [defaultdict(list)] (or [if k in d: ... else: ...]): [d[k].append(v)] *)
Definition gd_append {K V} (keq : K -> K -> bool) (d : list (K * list V)) (k : K) (v : V)
  : list (K * list V) :=
  gd_set keq d k (match gd_get keq d k with Some l => l ++ [v] | None => [v] end).
