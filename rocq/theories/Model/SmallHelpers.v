(** Small functions of helpers.py, utilities.py and features.py: which directories carry
    parameters, command lines as one string, sets and dictionaries compared, unit vectors. *)
From Verif Require Export Model.UtilNames Model.PosixPath Model.Py Model.PyDict.
Open Scope Z_scope.

Section dirs.
  Context {F : Type} (float_of : pystr -> option F) (fneg : F -> F).
  Variable uni : pystr -> option Z.
  Variable uninumeric : pystr -> bool.
  Variable numeq : @item_ F -> @item_ F -> bool.

  (** [params.update(d)] *)
  Definition dict_update (params d : list (@item_ F * @param_ F)) : list (@item_ F * @param_ F) :=
    fold_left (fun p kv => gd_set (item_eq numeq) p (fst kv) (snd kv)) d params.

  (** utilities.py:521-538: the head of the path, and the dictionary that was given, afterwards *)
  Definition get_dir_params (dirpath : pystr) (params : list (@item_ F * @param_ F))
    : result (pystr * list (@item_ F * @param_ F)) :=
    let '(head, tail) := path_split dirpath in
    do d <- usplit_params float_of fneg uni uninumeric numeq tail;
    Ok (head, dict_update params d).
End dirs.

(** utilities.py:469-478 *)
Definition params_to_arg_string (params : list (pystr * uval)) : pystr := join [32] (params_to_args params).

Section sets.
  (** the elements of a set, with [==] *)
  Context {A : Type} (aeq : A -> A -> bool).

  (** helpers.py:122-131 *)
  Definition confirm_membership (required_set proposed : list A) : bool :=
    forallb (fun x => existsb (aeq x) proposed) required_set.
End sets.

Section dicts.
  Context {K V : Type} (keq : K -> K -> bool) (veq : V -> V -> bool).
  (** lists and dictionaries cannot be in a set *)
  Variable hashable : V -> bool.

  (** [set(d.items())] *)
  Definition item_set (d : list (K * V)) : result (list (K * V)) :=
    if forallb (fun kv => hashable (snd kv)) d then Ok d else Err TypeError.

  (** helpers.py:624-629 *)
  Definition dicts_exact_match (d1 d2 : list (K * V)) : result bool :=
    do s1 <- item_set d1;
    do s2 <- item_set d2;
    let rest := filter (fun x => negb (existsb (fun y => keq (fst x) (fst y) && veq (snd x) (snd y)) s2)) s1 in
    Ok (Nat.eqb (length rest) 0).
End dicts.

(** features.py:39-44, for labels that are whole numbers. [np.zeros] raises ValueError for a
    negative length. The entries, 0 and 1, are given as integers. *)
Definition unitizer (max_class label : Z) : result (list Z) :=
  if max_class <? 0 then Err ValueError
  else py_set (repeat 0 (Z.to_nat max_class)) label 1.
