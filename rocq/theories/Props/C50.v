(** C50: get_outer_boundaries. *)
From Verif Require Import Model.Regions Spec.Regions Proofs.RegionsFacts.
Open Scope Z_scope.

Theorem C50_outer_boundaries : forall (A : Type) (leq : A -> A -> bool),
  (forall x y, leq x y = true <-> x = y) ->
  forall (start : Z) (labels : list A) (cls rest : A) d,
  get_regions leq start labels = Ok d -> In cls labels -> In rest labels ->
  exists f l ms me, get_outer_boundaries leq d cls rest = Ok (f, l) /\
    label_at start labels ms = Some cls /\ label_at start labels (me - 1) = Some cls /\
    (forall i, label_at start labels i = Some cls -> ms <= i < me) /\
    (maximal_run start labels rest f ms \/
     label_at start labels (ms - 1) <> Some rest /\ f = ms) /\
    (maximal_run start labels rest me l \/
     label_at start labels me <> Some rest /\ l = me).
Proof. exact @outer_boundaries. Qed.
Print Assumptions C50_outer_boundaries.
Example C50_ex :
  let l := [0; 0; 0; 1; 1; 0; 0; 1; 1; 1; 0; 0; 2; 0; 3; 3; 0; 4] in
  (do d <- get_regions Z.eqb 0 l; get_outer_boundaries Z.eqb d 1 0) = Ok (0, 12) /\
  (do d <- get_regions Z.eqb 0 l; get_outer_boundaries Z.eqb d 4 0) = Ok (16, 18) /\
  (do d <- get_regions Z.eqb 0 l; get_outer_boundaries Z.eqb d 9 0) = Err KeyError.
Proof. repeat split; reflexivity. Qed.
