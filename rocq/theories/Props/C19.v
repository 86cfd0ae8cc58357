(** C19: The C context tree never uses freed memory and frees everything. *)
From Coq Require Import Lra.
From Verif Require Import Model.ModelFast Model.KT Spec.Objects.
From Verif Require Import Proofs.CTWFast Proofs.CTWShareEx.
Open Scope R_scope.

(** No program within the alphabet runs into undefined behaviour (use after free, double free,
    an index out of bounds), nor into anything else but the use of a deleted variable. *)
Theorem C19_memory_safe : forall N ops, (0 < N)%nat -> Forall (within N 0) ops ->
  match returned (orun (cw_new N) cw_copy cw_del (cw_update N) (cw_log_predict N) (CWorld [] []) ops) with
  | Ok _ => True
  | Err e => e = NameError
  end.
Proof. exact fast_safe. Qed.
Print Assumptions C19_memory_safe.

(** When every object has been deleted, every node has been freed. *)
Theorem C19_no_leak : forall N ops w rs,
  orun (cw_new N) cw_copy cw_del (cw_update N) (cw_log_predict N) (CWorld [] []) ops = Ok (w, rs) ->
  (forall i, match nth_error (cw_objs w) i with Some (Some _) => False | _ => True end) ->
  forall p, match nth_error (cw_heap w) p with Some (Some _) => False | _ => True end.
Proof. exact fast_no_leak. Qed.
Print Assumptions C19_no_leak.

(** Sharing is never visible: the values are those of separate trees. *)
Theorem C19_shared_nodes_unmodified : forall N ops, (0 < N)%nat -> Forall (within N 1) ops ->
  returned (orun (cw_new N) cw_copy cw_del (cw_update N) (cw_log_predict N) (CWorld [] []) ops) =
  returned (deep_run (ctw_init (kt_init (map Z.of_nat (seq 0 N))))
              (ctw_update KT_model (kt_init (map Z.of_nat (seq 0 N))) false)
              (ctw_log_predict KT_model (kt_init (map Z.of_nat (seq 0 N))) false) ops).
Proof. exact fast_is_ctw. Qed.
Print Assumptions C19_shared_nodes_unmodified.

(** Nothing checks symbols: one outside the alphabet reads and writes outside the array, and in
    an alphabet of more than 128 symbols some of its own symbols do. *)
Theorem C19_unchecked_symbols_refuted :
  fast_run 2 [ONew 1; OUpdate 0 2 [] 1] = Err OutOfBounds /\
  fast_run 200 [ONew 1; OUpdate 0 150 [] 1] = Err OutOfBounds.
Proof. exact (conj fast_unchecked_symbol fast_unchecked_byte). Qed.
Print Assumptions C19_unchecked_symbols_refuted.

Example C19_ex : Forall (within 2 0)
  [ONew 2; OUpdate 0 0 [0; 0]%Z 1; OCopy 0; ODel 0; OUpdate 1 1 [1; 0]%Z 1; OPredict 1 0 []; ODel 1].
Proof. repeat apply Forall_cons; try apply Forall_nil; cbn; unfold symbol; repeat split; try lia; try lra; auto;
  repeat apply Forall_cons; try apply Forall_nil; lia. Qed.

(** Making, updating, copying and deleting both objects frees all three nodes they had. *)
Example C19_leak_ex : exists h rs,
  fast_run 2 [ONew 1; OUpdate 0 0 [0]%Z 1; OCopy 0; ODel 0; ODel 1] = Ok (CWorld h [None; None], rs) /\
  h = [None; None; None].
Proof.
  assert (H: 1 / INR 2 = / 2) by (cbn; lra). unfold fast_run. do 2 eexists. split; [crun; reflexivity|reflexivity].
Qed.
