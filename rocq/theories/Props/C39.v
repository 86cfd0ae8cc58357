(** C39: get_regions lists the maximal runs of every label. *)
From Coq Require Import Sorted.
From Verif Require Import Model.Regions Spec.Regions Proofs.RegionsFacts.
Open Scope Z_scope.

Theorem C39_regions : forall (A : Type) (leq : A -> A -> bool),
  (forall x y, leq x y = true <-> x = y) ->
  forall (start : Z) (labels : list A), labels <> [] ->
  exists d, get_regions leq start labels = Ok d /\ NoDup (map fst d) /\
    (forall c, In c (map fst d) <-> In c labels) /\
    (forall c rs, gd_get leq d c = Some rs ->
       StronglySorted (fun p q => snd p <= fst q) rs /\
       forall a b, In (a, b) rs <-> maximal_run start labels c a b).
Proof. exact @regions_spec. Qed.
Print Assumptions C39_regions.
Example C39_ex :
  get_regions Z.eqb 0 [0; 0; 0; 1; 1; 0; 0; 0] = Ok [(0, [(0, 3); (5, 8)]); (1, [(3, 5)])] /\
  get_regions Z.eqb 5 [7; 8; 8] = Ok [(7, [(5, 6)]); (8, [(6, 8)])].
Proof. split; reflexivity. Qed.

Theorem C39_no_labels : forall (A : Type) (leq : A -> A -> bool) start,
  get_regions leq start [] = Err IndexError.
Proof. exact @regions_empty. Qed.
Print Assumptions C39_no_labels.
