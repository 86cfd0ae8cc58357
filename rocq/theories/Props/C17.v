(** C17: CTW_KT agrees with generic CTW (KTBinary base, binary contexts): the same values and
    the same exceptions, for every depth and every call sequence. *)
From Coq Require Import Lra.
From Verif Require Import Model.ModelFast Model.KT Spec.Ops Spec.Objects.
From Verif Require Import Proofs.CTWKTFacts Proofs.CTWFast Proofs.CTWFastKT.
Open Scope R_scope.

Theorem C17_ctwkt_is_ctw : forall depth ops,
  (do (_, rs) <- exec ctwkt_update ctwkt_log_predict (ctwkt_init depth) ops; Ok rs) =
  (do (_, rs) <- exec (ctw_update KTB_model ktb_init true) (ctw_log_predict KTB_model ktb_init true)
                   (ctw_init ktb_init depth) ops; Ok rs).
Proof. exact ctwkt_is_ctw. Qed.
Print Assumptions C17_ctwkt_is_ctw.

(** The C implementation over two symbols, for programs over any number of objects. *)
Theorem C17_fast_is_ctwkt : forall ops, Forall (within 2 1) ops ->
  returned (orun (cw_new 2) cw_copy cw_del (cw_update 2) (cw_log_predict 2) (CWorld [] []) ops) =
  returned (deep_run ctwkt_init ctwkt_update ctwkt_log_predict ops).
Proof. exact fast_is_ctwkt. Qed.
Print Assumptions C17_fast_is_ctwkt.

(** Over [N] symbols it is CTW with KT models over 0..N-1 and unrestricted contexts. *)
Theorem C17_fast_is_ctw_over_kt : forall N ops, (0 < N)%nat -> Forall (within N 1) ops ->
  returned (orun (cw_new N) cw_copy cw_del (cw_update N) (cw_log_predict N) (CWorld [] []) ops) =
  returned (deep_run (ctw_init (kt_init (map Z.of_nat (seq 0 N))))
              (ctw_update KT_model (kt_init (map Z.of_nat (seq 0 N))) false)
              (ctw_log_predict KT_model (kt_init (map Z.of_nat (seq 0 N))) false) ops).
Proof. exact fast_is_ctw. Qed.
Print Assumptions C17_fast_is_ctw_over_kt.

Example C17_ex : Forall (within 2 1) [ONew 3; OUpdate 0 1 [0; 1; 1]%Z 1; OPredict 0 0 [1]%Z] /\
  Forall (within 3 1) [ONew 3; OUpdate 0 2 [0; 1; 2]%Z 1; OCopy 0; OPredict 1 0 [2]%Z].
Proof. split; repeat apply Forall_cons; try apply Forall_nil; cbn; unfold symbol; repeat split; try lia; try lra; auto;
  repeat apply Forall_cons; try apply Forall_nil; lia. Qed.
