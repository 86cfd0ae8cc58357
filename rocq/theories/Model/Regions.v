(** helpers.py:490-552: runs of equal labels. *)
From Verif Require Export Model.PyDict.
Open Scope Z_scope.

Section regions.
  (** [leq] is [==] on labels. The labels are those of a pandas Series whose index is
      [start], [start+1], ... ([start = 0] for a plain list). *)
  Context {A : Type} (leq : A -> A -> bool).

  (** [labels.index] *)
  Definition index_of (start : Z) (labels : list A) : list Z :=
    map (fun i => start + Z.of_nat i) (seq 0 (length labels)).

  (** [labels.shift()]: [None] is the missing value in front, which differs from every label. *)
  Definition shift (labels : list A) : list (option A) :=
    firstn (length labels) (None :: map Some labels).
  Definition neq_shifted (x : A) (y : option A) : bool :=
    match y with None => true | Some y => negb (leq x y) end.

  (** helpers.py:514: [labels.index[labels.reindex() != labels.shift().reindex()]] *)
  Definition all_changes (start : Z) (labels : list A) : list Z :=
    map fst (filter (fun p => neq_shifted (fst (snd p)) (snd (snd p)))
               (combine (index_of start labels) (combine labels (shift labels)))).

  (** [labels[i]] of the Series: by index label *)
  Definition series_get (start : Z) (labels : list A) (i : Z) : result A :=
    if i <? start then Err KeyError else
    match nth_error labels (Z.to_nat (i - start)) with Some x => Ok x | None => Err KeyError end.

  (** helpers.py:519-523 *)
  Fixpoint group_regions (start : Z) (labels : list A) (regions : list (Z * Z))
    (d : list (A * list (Z * Z))) : result (list (A * list (Z * Z))) :=
    match regions with
    | [] => Ok d
    | v :: regions' =>
        do cls <- series_get start labels (fst v);
        group_regions start labels regions' (gd_append leq d cls v)
    end.

  (** helpers.py:490-525 *)
  Definition get_regions (start : Z) (labels : list A) : result (list (A * list (Z * Z))) :=
    do first <- py_get (index_of start labels) 0;
    do last <- py_get (index_of start labels) (-1);
    let changes := all_changes start labels in
    do c0 <- py_get changes 0;
    let changes := if c0 =? first then slice_from changes 1 else changes in
    let regions := combine (first :: changes) (changes ++ [last + 1]) in
    group_regions start labels regions [].

  (** helpers.py:546-551, the loop *)
  Fixpoint outer_loop (rest : list (Z * Z)) (my_start my_end first last : Z) : Z * Z :=
    match rest with
    | [] => (first, last)
    | r :: rest' =>
        let first := if snd r =? my_start then fst r else first in
        if fst r =? my_end then (first, snd r)
        else outer_loop rest' my_start my_end first last
    end.

  (** helpers.py:527-552 *)
  Definition get_outer_boundaries (regions : list (A * list (Z * Z))) (cls rest_cls : A)
    : result (Z * Z) :=
    do mine <- gd_lookup leq regions cls;
    do r0 <- py_get mine 0;
    do rl <- py_get mine (-1);
    do rest <- gd_lookup leq regions rest_cls;
    Ok (outer_loop rest (fst r0) (snd rl) (fst r0) (snd rl)).
End regions.
