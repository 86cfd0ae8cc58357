(** C88: the headers of an array. *)
From Verif Require Import Spec.DirsSpec Spec.UtilNames Proofs.HeadersFacts.
Open Scope Z_scope.

(** There are as many as asked for, *)
Theorem C88_count : forall name n, length (get_array_headers name n) = Z.to_nat n.
Proof. exact headers_count. Qed.
Print Assumptions C88_count.

(** each is the name, a dash and the number in as many digits as the length has, *)
Theorem C88_header : forall name n i, (i < Z.to_nat n)%nat -> exists ds, nth_error (get_array_headers name n) i = Some (uclean name ++ dash :: ds) /\
  length ds = length (str_of_int n) /\ forallb is_digit ds = true /\ digits_value ds = Z.of_nat i.
Proof. exact header_nth. Qed.
Print Assumptions C88_header.

(** all are different, *)
Theorem C88_different : forall name n, NoDup (get_array_headers name n).
Proof. exact headers_nodup. Qed.
Print Assumptions C88_different.

(** and their order as strings is that of the numbers. *)
Theorem C88_order : forall name n i j hi hj, nth_error (get_array_headers name n) i = Some hi -> nth_error (get_array_headers name n) j = Some hj ->
  strle hi hj = true <-> (i <= j)%nat.
Proof. exact headers_order. Qed.
Print Assumptions C88_order.

(** Arrays with different names, of letters, digits, underscores and dots, have no header in common; *)
Theorem C88_apart_partial : forall a b m n h, Forall safe a -> ~ In dash a -> Forall safe b -> ~ In dash b ->
  In h (get_array_headers a m) -> In h (get_array_headers b n) -> a = b.
Proof. exact headers_apart. Qed.
Print Assumptions C88_apart_partial.

Example C88_ex : get_array_headers (lit "tile_index") 3 = map lit ["tile_index-0"; "tile_index-1"; "tile_index-2"]%string /\
  nth_error (get_array_headers (lit "a") 10) 9 = Some (lit "a-09") /\ strle (lit "a-9") (lit "a-10") = false /\
  Forall safe (lit "tile_index") /\ ~ In dash (lit "tile_index").
Proof.
  repeat apply conj; try (vm_compute; reflexivity).
  - apply Forall_forall. intros c H. unfold safe. cbn in H. intuition lia.
  - cbn. intuition discriminate.
Qed.

(** names with dashes or other characters may. *)
Theorem C88_apart_refuted : get_array_headers (lit "a-b") 2 = get_array_headers (lit "ab") 2 /\ get_array_headers (lit "#1") 2 = get_array_headers (lit "1") 2.
Proof. exact headers_same. Qed.
Print Assumptions C88_apart_refuted.
