(** C02: KT predictions always form a probability distribution. *)
From Coq Require Import Lra.
From Verif Require Import Model.KT Spec.Prob Proofs.EstimatorProps.
Open Scope R_scope.

Theorem C02_kt_distribution : forall A evs h,
  NoDup A -> A <> [] -> Forall (fun e => In (ev_sym e) A /\ 0 <= ev_wt e) evs ->
  exists s l, run KT_model (kt_init A) evs = Ok (s, l) /\
    (forall a, In a A -> exists p, predict KT_model s a h = Ok p /\ 0 < p) /\
    Rsum (map (fun a => pred_prob KT_model s a h) A) = 1.
Proof. exact kt_distribution. Qed.
Print Assumptions C02_kt_distribution.
Example C02_kt_distribution_ex :
  NoDup [10; 20; 30]%Z /\ [10; 20; 30]%Z <> [] /\
  Forall (fun e => In (ev_sym e) [10; 20; 30]%Z /\ 0 <= ev_wt e)
    [Event 20 [] 1; Event 30 [20%Z] (5/2); Event 20 [20; 30]%Z 0].
Proof.
  split; [repeat constructor; cbn; intuition discriminate|]. split; [discriminate|].
  repeat apply Forall_cons; try apply Forall_nil; cbn; (split; [tauto|lra]).
Qed.

(** With user-supplied positive initial counts. *)
Theorem C02_kt_distribution_counts : forall A counts evs h,
  NoDup A -> A <> [] -> (forall a, In a A -> exists c, dict_get counts a = Some c /\ 0 < c) ->
  Forall (fun e => In (ev_sym e) A /\ 0 <= ev_wt e) evs ->
  exists s0 s l, kt_init_counts A counts = Ok s0 /\ run KT_model s0 evs = Ok (s, l) /\
    (forall a, In a A -> exists p, predict KT_model s a h = Ok p /\ 0 < p) /\
    Rsum (map (fun a => pred_prob KT_model s a h) A) = 1.
Proof. exact kt_distribution_counts. Qed.
Print Assumptions C02_kt_distribution_counts.
Example C02_kt_distribution_counts_ex :
  forall a, In a [0; 1]%Z -> exists c, dict_get [(1%Z, 3); (0%Z, / 4)] a = Some c /\ 0 < c.
Proof. intros a [<-|[<-|[]]]; eexists; (split; [reflexivity|lra]). Qed.
