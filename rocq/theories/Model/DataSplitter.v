(** experiment.py:57-91: DataSplitter. *)
From Verif Require Model.Tiles.
From Verif Require Export Model.Params.
Open Scope Z_scope.

Inductive split_mode := Half | Sample | OtherSplit.

Section splitter.
  Context {A Seed : Type}.
  (** [random.seed(s); random.shuffle(l)] *)
  Variable shuffle : Seed -> list Z -> list Z.
  (** is the name [math] bound in the module? It is not: no import, direct or by [import *],
      provides it (experiment.py:16-34). *)
  Variable math : bool.

  (** [range(start, stop)] *)
  Definition range (start stop : Z) : list Z :=
    map (fun i => start + Z.of_nat i) (seq 0 (Z.to_nat (stop - start))).

  (** [data.ix[rows]] of a table whose index counts the rows from 0 *)
  Definition ix (data : list A) (rows : list Z) : result (list A) :=
    mapM (fun i => if i <? 0 then Err KeyError
                   else match nth_error data (Z.to_nat i) with
                        | Some x => Ok x
                        | None => Err KeyError
                        end) rows.

  (** experiment.py:72-91; [seed] is the one given or drawn. *)
  Definition data_splitter (split_ : split_mode) (gap nsample : Z) (seed : Seed) (data : list A)
    : result (list A * list A) :=
    match split_ with
    | Half =>
        if math then
          let half := (length data / 2)%nat in
          Ok (firstn half data, skipn half data)
        else Err NameError
    | Sample =>
        let tot := gap + nsample in
        do firsts <- Tiles.py_range3 gap (Z.of_nat (length data) - tot) tot;
        let firsts := shuffle seed firsts in
        if math then
          let half := (length firsts / 2)%nat in
          let tr := sort Z.leb (flat_map (fun i => range i (i + nsample)) (skipn half firsts)) in
          let te := sort Z.leb (flat_map (fun i => range i (i + nsample)) (firstn half firsts)) in
          do x <- ix data tr; do y <- ix data te; Ok (x, y)
        else Err NameError
    | OtherSplit => Ok (data, data)
    end.
End splitter.
