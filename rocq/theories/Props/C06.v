(** C06: KTBinary is KT on the alphabet {0,1}: same values, same exceptions. *)
From Verif Require Import Model.KT Spec.Prob Proofs.KTBinFacts.
Open Scope R_scope.

(** For any weights (also negative ones) and any common history of binary updates: the total of
    the update values is the same, and so is every later log_predict. *)
Theorem C06_ktbinary_is_kt : forall evs a h,
  Forall (fun e => ev_sym e = 0%Z \/ ev_sym e = 1%Z) evs -> a = 0%Z \/ a = 1%Z ->
  (do (_, l) <- run KTB_model ktb_init evs; Ok l) =
    (do (_, l) <- run KT_model (kt_init [0;1]%Z) evs; Ok l) /\
  (do (s, _) <- run KTB_model ktb_init evs; ktb_log_predict s a h) =
    (do (s, _) <- run KT_model (kt_init [0;1]%Z) evs; kt_log_predict s a h).
Proof. exact ktb_equiv. Qed.
Print Assumptions C06_ktbinary_is_kt.
Example C06_ktbinary_is_kt_ex :
  Forall (fun e => ev_sym e = 0%Z \/ ev_sym e = 1%Z) [Event 0 [] 1; Event 1 [0%Z] 2; Event 1 [] (/ 2)].
Proof. repeat apply Forall_cons; try apply Forall_nil; cbn; tauto. Qed.
