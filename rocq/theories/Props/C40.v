(** C40: parameter sweeps enumerate the full grid, once each. *)
From Verif Require Import Model.Params Model.PyStr Proofs.DictFacts Proofs.ParamsFacts Proofs.StrFacts.
Open Scope Z_scope.

(** The dictionaries generated are exactly those with the given keys, in the given order, and a
    listed value for each. *)
Theorem C40_grid : forall (K V : Type) (keq : K -> K -> bool),
  (forall x y, keq x y = true <-> x = y) ->
  forall params : list (K * list V), NoDup (map fst params) -> forall d,
  In d (unique_dict_sets keq params) <->
  map fst d = map fst params /\
  forall k v, In (k, v) d -> exists vs, In (k, vs) params /\ In v vs.
Proof. exact @sets_in. Qed.
Print Assumptions C40_grid.

Theorem C40_count : forall (K V : Type) (keq : K -> K -> bool),
  forall params : list (K * list V), NoDup (map fst params) ->
  length (unique_dict_sets keq params) = fold_right (fun p n => length (snd p) * n)%nat 1%nat params.
Proof. exact @sets_length. Qed.
Print Assumptions C40_count.

Theorem C40_once : forall (K V : Type) (keq : K -> K -> bool),
  (forall x y, keq x y = true <-> x = y) ->
  forall params : list (K * list V), NoDup (map fst params) ->
  Forall (fun p => NoDup (snd p)) params -> NoDup (unique_dict_sets keq params).
Proof. exact @sets_nodup. Qed.
Print Assumptions C40_once.

(** the two functions agree, except without parameters *)
Theorem C40_combinations : forall (K V : Type) (keq : K -> K -> bool) (params : list (K * list V)),
  params <> [] -> get_all_combinations keq (Some params) = unique_dict_sets keq params.
Proof. exact @combinations. Qed.
Print Assumptions C40_combinations.

Theorem C40_no_parameters : forall (K V : Type) (keq : K -> K -> bool),
  unique_dict_sets (V := V) keq [] = [[]] /\
  get_all_combinations (V := V) keq (Some []) = [] /\ get_all_combinations (V := V) keq None = [].
Proof. exact @no_parameters. Qed.
Print Assumptions C40_no_parameters.

Example C40_ex :
  let params := [(lit "a", [1; 2]); (lit "b", [3]); (lit "c", [4; 5])] in
  NoDup (map fst params) /\ Forall (fun p => NoDup (snd p)) params /\
  unique_dict_sets streq params =
    [[(lit "a", 1); (lit "b", 3); (lit "c", 4)]; [(lit "a", 1); (lit "b", 3); (lit "c", 5)];
     [(lit "a", 2); (lit "b", 3); (lit "c", 4)]; [(lit "a", 2); (lit "b", 3); (lit "c", 5)]] /\
  (forall x y, streq x y = true <-> x = y).
Proof.
  cbn zeta. split; [|split; [|split; [reflexivity|exact streq_spec]]].
  - repeat constructor; cbn; intuition discriminate.
  - repeat constructor; cbn; intuition discriminate.
Qed.
