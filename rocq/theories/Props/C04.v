(** C04: update() returns exactly what log_predict() would have returned. [agrees M]: in every
    state and for every call the two values (or exceptions) are equal. *)
From Verif Require Import Model.KT Model.Averager Model.Factored Model.CTW Spec.Prob Proofs.AgreeFacts.
Open Scope R_scope.

Theorem C04_kt_agrees : agrees KT_model.
Proof. exact kt_agrees. Qed.
Print Assumptions C04_kt_agrees.

Theorem C04_ktbinary_agrees : agrees KTB_model.
Proof. exact ktb_agrees. Qed.
Print Assumptions C04_ktbinary_agrees.

Theorem C04_sad_agrees : agrees SAD_model.
Proof. exact sad_agrees. Qed.
Print Assumptions C04_sad_agrees.

Theorem C04_dumb_agrees : agrees Dumb_model.
Proof. exact dumb_agrees. Qed.
Print Assumptions C04_dumb_agrees.

Theorem C04_averager_agrees : forall S (M : model S), agrees M -> agrees (AVG_model M).
Proof. exact @avg_agrees. Qed.
Print Assumptions C04_averager_agrees.
Example C04_averager_agrees_ex : agrees (AVG_model SAD_model).
Proof. exact (C04_averager_agrees _ _ C04_sad_agrees). Qed.

Theorem C04_factored_agrees : forall S (M : model S), agrees M -> agrees (Factored_model M).
Proof. exact @factored_agrees. Qed.
Print Assumptions C04_factored_agrees.
Example C04_factored_agrees_ex : agrees (Factored_model (AVG_model KT_model)).
Proof. exact (C04_factored_agrees _ _ (C04_averager_agrees _ _ C04_kt_agrees)). Qed.

Theorem C04_ctw_agrees : forall S (M : model S) fresh binary,
  agrees M -> agrees (CTW_model M fresh binary).
Proof. exact @ctw_agrees. Qed.
Print Assumptions C04_ctw_agrees.
Example C04_ctw_agrees_ex : agrees (CTW_model KTB_model ktb_init true).
Proof. exact (C04_ctw_agrees _ _ _ _ C04_ktbinary_agrees). Qed.

(** ... also with a user-supplied context function. *)
Theorem C04_ctw_mkcontext_agrees : forall S (M : model S) fresh binary mkctx,
  agrees M -> agrees (CTW_model_with M fresh binary mkctx).
Proof. exact @ctw_with_agrees. Qed.
Print Assumptions C04_ctw_mkcontext_agrees.

Theorem C04_ctwkt_agrees : agrees CTWKT_model.
Proof. exact ctwkt_agrees. Qed.
Print Assumptions C04_ctwkt_agrees.
