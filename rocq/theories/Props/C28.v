(** C28: what LogStoreUniform retains. *)
From Coq Require Import Arith.
From Verif Require Import Model.Stores Proofs.UniformFacts.
Open Scope nat_scope.

(** [idx] are the indices of the retained items, oldest first. *)
Theorem C28_retained : forall A (xs : list A), xs <> [] ->
  exists s idx j newest,
    us_adds us_init xs = Ok s /\
    map Some (us_items s) = map (nth_error xs) idx /\
    us_gap s = Z.of_nat (2 ^ j) /\
    hd_error idx = Some 0 /\
    (forall i a b, nth_error idx i = Some a -> nth_error idx (S i) = Some b ->
       b = a + 2 ^ j \/ b = a + 2 * 2 ^ j) /\
    nth_error idx (length idx - 1) = Some newest /\ newest < length xs <= newest + 2 ^ j /\
    length idx <= Nat.log2 (length xs) + 2 /\
    length xs <= length idx * 2 ^ length idx.
Proof. exact @uniform_items. Qed.
Print Assumptions C28_retained.

(** s[i] is the i-th item of the iteration (newest first), for 0 <= i < len(s). *)
Theorem C28_getitem_partial : forall A (s : ustore A) i, i < length (us_items s) ->
  exists x, us_getitem s (Z.of_nat i) = Ok x /\ nth_error (us_iter s) i = Some x.
Proof. exact @uniform_getitem. Qed.
Print Assumptions C28_getitem_partial.

(** The documented s[-1] always raises, and s[len(s)] does not. *)
Theorem C28_last_index_refuted : exists s : ustore nat,
  us_adds us_init (seq 0 16) = Ok s /\ us_iter s = [12; 8; 4; 0] /\
  us_getitem s (-1) = Err IndexError /\ us_getitem s 4 = Ok 12.
Proof. exact uniform_doctest. Qed.
Print Assumptions C28_last_index_refuted.

Theorem C28_last_index_never_works : forall A (s : ustore A), us_getitem s (-1) = Err IndexError.
Proof. exact @uniform_getitem_negative. Qed.
Print Assumptions C28_last_index_never_works.

Theorem C28_past_the_end_wraps : forall A (s : ustore A), us_items s <> [] ->
  us_getitem s (Z.of_nat (length (us_items s))) = us_getitem s 0.
Proof. exact @uniform_getitem_wraps. Qed.
Print Assumptions C28_past_the_end_wraps.

Example C28_ex : exists s : ustore nat, us_adds us_init (seq 0 20) = Ok s /\
  us_items s = [0; 8; 12; 16] /\ us_gap s = 4%Z.
Proof. eexists. split; [vm_compute; reflexivity|]. split; vm_compute; reflexivity. Qed.
