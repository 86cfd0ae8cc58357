(** C49: the KT estimators of ctw.py and learners.py return what model.py's KT returns: the same
    totals for every sequence of updates, the same predictions afterwards, the same exceptions. *)
From Coq Require Import Lra.
From Verif Require Import Model.CtwPTW Model.LearnersPTW Model.KT Spec.Equiv.
From Verif Require Import Proofs.CtwKTFacts Proofs.LearnersKTFacts.
Open Scope R_scope.

Theorem C49_ctw_kt_same : forall A, NoDup A -> A <> [] ->
  same_values (q_model QKT_class) (qkt_init A) KT_model (kt_init A) (fun e => 0 <= ev_wt e).
Proof. exact qkt_same. Qed.
Print Assumptions C49_ctw_kt_same.

Theorem C49_learners_kt_same : forall A, NoDup A -> A <> [] ->
  same_values LKT_model (lkt_init A) KT_model (kt_init A) (fun e => ev_wt e = 1).
Proof. exact lkt_same. Qed.
Print Assumptions C49_learners_kt_same.

Example C49_ex : NoDup [0; 1; 7]%Z /\ [0; 1; 7]%Z <> [] /\
  Forall (fun e => 0 <= ev_wt e) [Event 7 [] (/ 3); Event 0 [] 2; Event 5 [] 1] /\
  Forall (fun e => ev_wt e = 1) [Event 7 [] 1; Event 0 [] 1; Event 5 [] 1].
Proof.
  split; [repeat constructor; cbn; intuition lia|]. split; [discriminate|].
  split; repeat apply Forall_cons; try apply Forall_nil; cbn; lra.
Qed.
