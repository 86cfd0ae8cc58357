(** C41: what parameter sets have in common. *)
From Coq Require Import Sorted.
From Verif Require Import Model.Params Model.PyStr Proofs.DictFacts Proofs.ParamsFacts Proofs.StrFacts.
Open Scope Z_scope.

(** The shared keys are those of every dictionary, sorted, once each. *)
Theorem C41_shared_keys : forall (K V : Type) (keq : K -> K -> bool),
  (forall x y, keq x y = true <-> x = y) -> forall kle : K -> K -> bool,
  (forall x y, kle x y = true \/ kle y x = true) ->
  (forall x y z, kle x y = true -> kle y z = true -> kle x z = true) ->
  forall pl : list (list (K * V)), pl <> [] -> Forall (fun p => NoDup (map fst p)) pl ->
  exists ks, get_shared_keys keq kle pl = Some ks /\
    StronglySorted (fun x y => kle x y = true) ks /\ NoDup ks /\
    forall k, In k ks <-> forall p, In p pl -> In k (map fst p).
Proof. exact @shared_keys_spec. Qed.
Print Assumptions C41_shared_keys.

(** The unique keys are those of some dictionary but not of all. *)
Theorem C41_unique_keys : forall (K V : Type) (keq : K -> K -> bool),
  (forall x y, keq x y = true <-> x = y) -> forall kle : K -> K -> bool,
  (forall x y, kle x y = true \/ kle y x = true) ->
  (forall x y z, kle x y = true -> kle y z = true -> kle x z = true) ->
  forall pl : list (list (K * V)), pl <> [] -> Forall (fun p => NoDup (map fst p)) pl ->
  exists us, get_unique_keys keq kle pl = Some us /\
    StronglySorted (fun x y => kle x y = true) us /\ NoDup us /\
    forall k, In k us <->
      (exists p, In p pl /\ In k (map fst p)) /\ exists p, In p pl /\ ~ In k (map fst p).
Proof. exact @unique_keys_spec. Qed.
Print Assumptions C41_unique_keys.

(** The shared values are the entries that every dictionary has. *)
Theorem C41_shared_values : forall (K V : Type) (keq : K -> K -> bool),
  (forall x y, keq x y = true <-> x = y) -> forall veq : V -> V -> bool,
  (forall x y, veq x y = true <-> x = y) ->
  forall pl : list (list (K * V)), pl <> [] -> Forall (fun p => NoDup (map fst p)) pl ->
  exists d, get_shared_values keq veq pl = Some d /\ NoDup (map fst d) /\
    forall k v, gd_get keq d k = Some v <-> forall p, In p pl -> gd_get keq p k = Some v.
Proof. exact @shared_values_spec. Qed.
Print Assumptions C41_shared_values.

Example C41_ex :
  let pl := [[(lit "x", 1); (lit "b", 2); (lit "c", 3)]; [(lit "c", 4); (lit "x", 1)]] in
  pl <> [] /\ Forall (fun p => NoDup (map fst p)) pl /\
  get_shared_keys streq strle pl = Some [lit "c"; lit "x"] /\
  get_unique_keys streq strle pl = Some [lit "b"] /\
  get_shared_values streq Z.eqb pl = Some [(lit "x", 1)] /\
  (forall x y, strle x y = true \/ strle y x = true) /\
  (forall x y z, strle x y = true -> strle y z = true -> strle x z = true).
Proof.
  cbn zeta. split; [discriminate|]. split; [repeat constructor; cbn; intuition discriminate|].
  repeat (split; [reflexivity|]). split; [exact strle_total|exact strle_trans].
Qed.
