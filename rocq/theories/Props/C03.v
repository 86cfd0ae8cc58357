(** C03: KT predictions depend only on how often each symbol was seen. *)
From Coq Require Import Lra Permutation.
From Verif Require Import Model.KT Spec.KTSpec Proofs.EstimatorProps.
Open Scope R_scope.

(** [kt_spec A evs a] = (1/|A| + weight seen for a) / (1 + total weight). Symbols outside the
    alphabet raise KeyError. *)
Theorem C03_kt_closed_form : forall A evs,
  NoDup A -> A <> [] -> Forall (fun e => In (ev_sym e) A /\ 0 <= ev_wt e) evs ->
  exists s l, run KT_model (kt_init A) evs = Ok (s, l) /\
    (forall a h, In a A -> predict KT_model s a h = Ok (kt_spec A evs a)) /\
    (forall a h w, ~ In a A -> m_logp KT_model s a h = Err KeyError /\
                               m_update KT_model s a h w = Err KeyError).
Proof. exact kt_closed. Qed.
Print Assumptions C03_kt_closed_form.
Example C03_kt_closed_form_ex : kt_spec [0; 1]%Z (unit_events [1; 1; 0; 1]%Z) 1 = 7 / 10.
Proof. unfold kt_spec, seen, total, unit_events, Rsum. cbn. lra. Qed.

(** Reordering the history changes neither the final state nor the total log probability. *)
Theorem C03_kt_exchangeable : forall A w evs evs',
  NoDup A -> A <> [] -> 0 <= w -> Permutation evs evs' ->
  Forall (fun e => In (ev_sym e) A /\ ev_wt e = w) evs ->
  run KT_model (kt_init A) evs = run KT_model (kt_init A) evs'.
Proof. exact kt_exchangeable. Qed.
Print Assumptions C03_kt_exchangeable.
Example C03_kt_exchangeable_ex :
  Permutation (unit_events [0; 1; 1]%Z) (unit_events [1; 0; 1]%Z) /\
  Forall (fun e => In (ev_sym e) [0; 1]%Z /\ ev_wt e = 1) (unit_events [0; 1; 1]%Z).
Proof. split; [apply perm_swap|]. repeat apply Forall_cons; try apply Forall_nil; cbn; tauto. Qed.
