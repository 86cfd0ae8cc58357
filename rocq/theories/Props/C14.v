(** C14: CTW.log_predict has no observable effect: deleting any log_predict calls from any call
    sequence leaves all the other returned values unchanged. *)
From Coq Require Import Lra.
From Verif Require Import Model.CTW Model.KT Spec.Prob Spec.Ops Proofs.CTWProps.
From Verif Require Import Proofs.KTFacts Proofs.KTBinFacts.
Open Scope R_scope.

Theorem C14_log_predict_transparent : forall S (M : model S) fresh binary A okh okw Inv K D,
  steps M A okh okw Inv -> Inv fresh -> NoDup K -> In 0%Z K ->
  (binary = true -> incl K [0; 1]%Z) -> (0 < D)%nat ->
  forall ops s rs ops' rs', okw 1 -> Forall (ok_opK A okh okw K) ops ->
  exec (ctw_update M fresh binary) (ctw_log_predict M fresh binary) (ctw_init fresh (Z.of_nat D)) ops
    = Ok (s, rs) ->
  without ops rs ops' rs' ->
  exists s', exec (ctw_update M fresh binary) (ctw_log_predict M fresh binary)
               (ctw_init fresh (Z.of_nat D)) ops' = Ok (s', rs').
Proof. exact @ctw_log_predict_transparent. Qed.
Print Assumptions C14_log_predict_transparent.

(** Such call sequences succeed. *)
Theorem C14_calls_succeed : forall S (M : model S) fresh binary A okh okw Inv K D,
  steps M A okh okw Inv -> Inv fresh -> NoDup K -> In 0%Z K ->
  (binary = true -> incl K [0; 1]%Z) -> (0 < D)%nat ->
  forall ops, okw 1 -> Forall (ok_opK A okh okw K) ops ->
  exists s rs, exec (ctw_update M fresh binary) (ctw_log_predict M fresh binary)
                 (ctw_init fresh (Z.of_nat D)) ops = Ok (s, rs).
Proof. exact @ctw_exec_ok. Qed.
Print Assumptions C14_calls_succeed.
Example C14_ex : Forall (ok_opK [0; 1]%Z any_hist nonneg [0; 1]%Z)
    [OpPredict 1 [1]%Z; OpUpdate 0 [1; 1]%Z 1; OpPredict 0 []; OpUpdate 1 [0]%Z 2] /\
  (forall r1 r2 r3 r4, without
    [OpPredict 1 [1]%Z; OpUpdate 0 [1; 1]%Z 1; OpPredict 0 []; OpUpdate 1 [0]%Z 2] [r1; r2; r3; r4]
    [OpUpdate 0 [1; 1]%Z 1; OpPredict 0 []; OpUpdate 1 [0]%Z 2] [r2; r3; r4]).
Proof.
  split.
  - repeat apply Forall_cons; try apply Forall_nil; cbn; unfold nonneg, any_hist, incl; cbn;
      repeat split; try tauto; try lra; intros; tauto.
  - intros. repeat constructor.
Qed.
