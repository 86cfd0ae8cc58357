(** C27: what LogStore retains. *)
From Coq Require Import Arith.
From Verif Require Import Model.Stores Proofs.StoreFacts.
Open Scope nat_scope.

(** Iterating after adding x_0 .. x_(n-1) yields x_(2^k (n/2^k - 1)) for k = 0 .. log2 n. *)
Theorem C27_retained : forall A (xs : list A), xs <> [] ->
  map Some (ls_iter (fold_left ls_add xs ls_init)) =
  map (fun k => nth_error xs (2 ^ k * (length xs / 2 ^ k - 1))) (seq 0 (Nat.log2 (length xs) + 1)).
Proof. exact @logstore_items. Qed.
Print Assumptions C27_retained.

Theorem C27_size : forall A (xs : list A), xs <> [] ->
  length (fold_left ls_add xs ls_init) = Nat.log2 (length xs) + 1.
Proof. exact @logstore_length. Qed.
Print Assumptions C27_size.

Theorem C27_first_is_newest : forall A (xs : list A) x,
  ls_getitem (fold_left ls_add (xs ++ [x]) ls_init) 0 = Ok x.
Proof. exact @logstore_getitem_first. Qed.
Print Assumptions C27_first_is_newest.

Theorem C27_last_is_oldest : forall A x (xs : list A),
  ls_getitem (fold_left ls_add (x :: xs) ls_init) (-1) = Ok x.
Proof. exact @logstore_getitem_last. Qed.
Print Assumptions C27_last_is_oldest.

(** learners.LogStore holds the same items in the same order. *)
Theorem C27_learners_same : forall A (xs : list A),
  lst_items (fold_left lst_add xs lst_init) = ls_iter (fold_left ls_add xs ls_init) /\
  lst_t (fold_left lst_add xs lst_init) = Z.of_nat (length xs).
Proof. exact @learners_logstore. Qed.
Print Assumptions C27_learners_same.

Example C27_ex :
  ls_iter (fold_left ls_add (seq 0 13) ls_init) = [12; 10; 8; 0] /\
  lst_items (fold_left lst_add (seq 0 13) lst_init) = [12; 10; 8; 0].
Proof. split; vm_compute; reflexivity. Qed.
