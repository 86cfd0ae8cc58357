(** C07: SAD predictions sum to one while unseen symbols remain (and not afterwards). *)
From Coq Require Import Lra.
From Verif Require Import Model.KT Spec.KTSpec Proofs.EstimatorProps Proofs.SADClosed.
Open Scope R_scope.

Theorem C07_sad_normalised : forall A evs h,
  NoDup A -> Forall (fun e => In (ev_sym e) A /\ 0 < ev_wt e) evs ->
  (exists a, In a A /\ ~ In a (map ev_sym evs)) ->
  exists s l, run SAD_model (sad_init (Z.of_nat (length A))) evs = Ok (s, l) /\
    (forall a, In a A -> exists p, predict SAD_model s a h = Ok p /\ 0 < p) /\
    Rsum (map (fun a => pred_prob SAD_model s a h) A) = 1.
Proof. exact sad_normalised. Qed.
Print Assumptions C07_sad_normalised.
Example C07_sad_normalised_ex :
  Forall (fun e => In (ev_sym e) [0; 1; 2]%Z /\ 0 < ev_wt e) (unit_events [2; 0; 2]%Z) /\
  exists a, In a [0; 1; 2]%Z /\ ~ In a (map ev_sym (unit_events [2; 0; 2]%Z)).
Proof.
  split; [repeat apply Forall_cons; try apply Forall_nil; cbn; (split; [tauto|lra])|]. exists 1%Z. cbn. intuition discriminate.
Qed.

(** Once every symbol was seen, the escape mass is lost: the sum is strictly below one. *)
Theorem C07_sad_all_seen_deficit : forall A evs h,
  NoDup A -> A <> [] -> Forall (fun e => In (ev_sym e) A /\ 0 < ev_wt e) evs ->
  (forall a, In a A -> In a (map ev_sym evs)) ->
  exists s l, run SAD_model (sad_init (Z.of_nat (length A))) evs = Ok (s, l) /\
    Rsum (map (fun a => pred_prob SAD_model s a h) A) < 1.
Proof. exact sad_all_seen_deficit. Qed.
Print Assumptions C07_sad_all_seen_deficit.

Theorem C07_sad_always_normalised_refuted : exists A evs s l h, NoDup A /\
  Forall (fun e => In (ev_sym e) A /\ 0 < ev_wt e) evs /\
  run SAD_model (sad_init (Z.of_nat (length A))) evs = Ok (s, l) /\
  Rsum (map (fun a => pred_prob SAD_model s a h) A) <> 1.
Proof. exact sad_all_seen_refuted. Qed.
Print Assumptions C07_sad_always_normalised_refuted.

(** Then a symbol outside the alphabet raises. *)
Theorem C07_sad_outside_raises : forall A evs h w a,
  NoDup A -> Forall (fun e => In (ev_sym e) A /\ 0 < ev_wt e) evs ->
  (forall b, In b A -> In b (map ev_sym evs)) -> ~ In a A ->
  exists s l, run SAD_model (sad_init (Z.of_nat (length A))) evs = Ok (s, l) /\
    m_logp SAD_model s a h = Err ZeroDivisionError /\ m_update SAD_model s a h w = Err ZeroDivisionError.
Proof. exact sad_outside_raises. Qed.
Print Assumptions C07_sad_outside_raises.
Example C07_sad_all_seen_ex :
  Forall (fun e => In (ev_sym e) [0; 1]%Z /\ 0 < ev_wt e) (unit_events [1; 0; 1]%Z) /\
  (forall a, In a [0; 1]%Z -> In a (map ev_sym (unit_events [1; 0; 1]%Z))) /\ ~ In 2%Z [0; 1]%Z.
Proof.
  split; [repeat apply Forall_cons; try apply Forall_nil; cbn; (split; [tauto|lra])|]. split; [cbn; tauto|cbn; intuition discriminate].
Qed.

(** The predictions are those of the sparse adaptive Dirichlet estimator, as a function of the
    history alone. *)
Theorem C07_sad_closed_form : forall A evs a h,
  NoDup A -> Forall (fun e => In (ev_sym e) A /\ 0 < ev_wt e) evs -> In a A ->
  exists s l, run SAD_model (sad_init (Z.of_nat (length A))) evs = Ok (s, l) /\
    sad_log_predict s a h = Ok (ln (sad_spec (length A) evs a)) /\ 0 < sad_spec (length A) evs a.
Proof. exact sad_closed_form. Qed.
Print Assumptions C07_sad_closed_form.
Example C07_sad_closed_form_ex : NoDup [0; 1; 2; 3]%Z /\ In 3%Z [0; 1; 2; 3]%Z /\
  Forall (fun e => In (ev_sym e) [0; 1; 2; 3]%Z /\ 0 < ev_wt e) [Event 2 [] 3; Event 0 [] (/ 2); Event 2 [] 1] /\
  distinct [Event 2 [] 3; Event 0 [] (/ 2); Event 2 [] 1] = 2%nat.
Proof.
  split; [repeat constructor; cbn; intuition lia|]. split; [cbn; tauto|]. split; [|reflexivity].
  repeat apply Forall_cons; try apply Forall_nil; cbn; (split; [tauto|lra]).
Qed.
