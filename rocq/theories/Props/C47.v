(** C47: splitting data into training and test sets. *)
From Coq Require Import Permutation Sorting.Sorted.
From Verif Require Import Model.DataSplitter Spec.DataSplitter Proofs.DataSplitterFacts.
Open Scope Z_scope.

(** The module does not import math, so both modes that split raise. *)
Theorem C47_half_refuted : forall (A Seed : Type) (shuffle : Seed -> list Z -> list Z)
  gap nsample seed (data : list A),
  data_splitter shuffle false Half gap nsample seed data = Err NameError.
Proof. exact @no_math. Qed.
Print Assumptions C47_half_refuted.

Theorem C47_sample_refuted : forall (A Seed : Type) (shuffle : Seed -> list Z -> list Z)
  gap nsample seed (data : list A),
  exists e, data_splitter shuffle false Sample gap nsample seed data = Err e.
Proof. exact @no_math_sample. Qed.
Print Assumptions C47_sample_refuted.

(** Any other mode trains and tests on the same data. *)
Theorem C47_other_refuted : forall (A Seed : Type) (shuffle : Seed -> list Z -> list Z)
  gap nsample seed (data : list A) math,
  data_splitter shuffle math OtherSplit gap nsample seed data = Ok (data, data).
Proof. exact @other. Qed.
Print Assumptions C47_other_refuted.

(** If the module imported math: halves, *)
Theorem C47_half_partial : forall (A Seed : Type) (shuffle : Seed -> list Z -> list Z)
  gap nsample seed (data : list A), exists tr te,
  data_splitter shuffle true Half gap nsample seed data = Ok (tr, te) /\ tr ++ te = data /\
  (length tr <= length te <= S (length tr))%nat.
Proof. exact @half_parts. Qed.
Print Assumptions C47_half_partial.

(** and samples: rows in increasing order, each row of the blocks in exactly one of the two sets,
    rows of different sets more than [gap] apart, sets of the same size up to one block. *)
Theorem C47_sample_partial : forall (A Seed : Type) (shuffle : Seed -> list Z -> list Z),
  (forall s l, Permutation l (shuffle s l)) ->
  forall gap nsample seed (data : list A), 0 <= gap -> 0 <= nsample -> 0 < gap + nsample ->
  exists tr te x y, data_splitter shuffle true Sample gap nsample seed data = Ok (x, y) /\
    rows_at data tr x /\ rows_at data te y /\
    StronglySorted Z.lt tr /\ StronglySorted Z.lt te /\
    (forall i j, In i tr -> In j te -> apart gap i j) /\
    (forall i, In i tr \/ In i te <-> in_block gap nsample (Z.of_nat (length data)) i) /\
    (length tr = length te \/ Z.of_nat (length tr) = Z.of_nat (length te) + nsample).
Proof. exact @sample_parts. Qed.
Print Assumptions C47_sample_partial.
Example C47_ex : data_splitter (fun (_ : unit) l => rev l) true Sample 1 2 tt
    [10; 11; 12; 13; 14; 15; 16; 17; 18; 19; 20; 21; 22]
  = Ok ([11; 12; 14; 15], [17; 18]).
Proof. reflexivity. Qed.
