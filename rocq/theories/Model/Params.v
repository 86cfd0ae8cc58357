(** Parameter sets: helpers.py:114-120 and utilities.py:1399-1490. *)
From Verif Require Export Model.PyDict.
Open Scope Z_scope.

Section params.
  Context {K V : Type} (keq : K -> K -> bool) (veq : V -> V -> bool).
  (** [sorted] on keys: insertion sort by [<=] on strings *)
  Variable kle : K -> K -> bool.

  (** [itertools.product] of the lists: the last list varies fastest. *)
  Fixpoint product (lists : list (list V)) : list (list V) :=
    match lists with
    | [] => [[]]
    | l :: lists' => flat_map (fun x => map (cons x) (product lists')) l
    end.

  (** helpers.py:114-120; the generator is run to its end. *)
  Definition unique_dict_sets (params : list (K * list V)) : list (list (K * V)) :=
    map (fun x => gd_of keq (combine (map fst params) x)) (product (map snd params)).

  (** utilities.py:1399-1420. Without parameters it returns the empty dictionary, which yields
      nothing when iterated over. *)
  Definition get_all_combinations (param_opt : option (list (K * list V)))
    : list (list (K * V)) :=
    match param_opt with
    | None | Some [] => []
    | Some p => map (fun x => gd_of keq (combine (map fst p) x)) (product (map snd p))
    end.

  Definition mem (k : K) (l : list K) : bool := existsb (keq k) l.

  (** [list.sort()] *)
  Fixpoint insert (k : K) (l : list K) : list K :=
    match l with
    | [] => [k]
    | x :: l' => if kle k x then k :: l else x :: insert k l'
    end.
  Definition sort (l : list K) : list K := fold_right insert [] l.

  (** utilities.py:1422-1439; [None] for an empty list. A set is a list without repetition. *)
  Definition get_shared_keys (param_list : list (list (K * V))) : option (list K) :=
    match param_list with
    | [] => None
    | p0 :: rest =>
        let keys := fold_left (fun keys p => filter (fun k => mem k (map fst p)) keys) rest
                      (map fst p0) in
        Some (sort keys)
    end.

  (** utilities.py:1454-1456 *)
  Definition count_keys (param_list : list (list (K * V))) : list (K * Z) :=
    fold_left (fun counts p =>
      fold_left (fun counts k =>
        gd_set keq counts k (1 + match gd_get keq counts k with Some c => c | None => 0 end))
        (map fst p) counts) param_list [].

  (** utilities.py:1441-1464 *)
  Definition get_unique_keys (param_list : list (list (K * V))) : option (list K) :=
    match param_list with
    | [] => None
    | _ =>
        let max_count := Z.of_nat (length param_list) in
        let counts := count_keys param_list in
        Some (sort (map fst (filter (fun kc => snd kc <? max_count) counts)))
    end.

  (** utilities.py:1486-1489: the loop that drops the keys with differing values *)
  Definition drop_differing (shared : list (K * V)) (p : list (K * V)) : list (K * V) :=
    fold_left (fun shared kv =>
      match gd_get keq shared (fst kv) with
      | Some v => if veq v (snd kv) then shared else gd_pop keq shared (fst kv)
      | None => shared
      end) p shared.

  (** utilities.py:1466-1490. The order of the result (that of a set in Python) is not modelled:
      only lookups in it matter. *)
  Definition get_shared_values (param_list : list (list (K * V))) : option (list (K * V)) :=
    match param_list with
    | [] => None
    | p0 :: _ =>
        let shared := filter (fun kv => forallb (fun p => mem (fst kv) (map fst p)) param_list) p0 in
        Some (fold_left drop_differing param_list shared)
    end.
End params.
