(** C05: KT redundancy is at most (1/2) ln n + ln 2 against every coin. *)
From Coq Require Import Lra.
From Verif Require Import Model.KT Spec.KTSpec Proofs.KTRedundancy Proofs.EstimatorProps.
Open Scope R_scope.

(** In the probability domain, for every coin (also those giving probability 0). *)
Theorem C05_kt_redundancy_prob : forall xs theta,
  Forall (fun x => x = 0%Z \/ x = 1%Z) xs -> xs <> [] -> 0 <= theta <= 1 ->
  coin_prob theta xs / (2 * sqrt (INR (length xs))) <=
  seq_prob KT_model (kt_init [0; 1]%Z) (unit_events xs).
Proof. exact kt_redundancy_prob. Qed.
Print Assumptions C05_kt_redundancy_prob.

(** Log losses; [l] is the sum of the values returned by update. *)
Theorem C05_kt_redundancy : forall xs theta s l,
  Forall (fun x => x = 0%Z \/ x = 1%Z) xs -> xs <> [] -> 0 <= theta <= 1 ->
  run KT_model (kt_init [0; 1]%Z) (unit_events xs) = Ok (s, l) ->
  0 < coin_prob theta xs ->
  - l <= - ln (coin_prob theta xs) + / 2 * ln (INR (length xs)) + ln 2.
Proof. exact kt_redundancy. Qed.
Print Assumptions C05_kt_redundancy.

Theorem C05_ktbinary_redundancy : forall xs theta s l,
  Forall (fun x => x = 0%Z \/ x = 1%Z) xs -> xs <> [] -> 0 <= theta <= 1 ->
  run KTB_model ktb_init (unit_events xs) = Ok (s, l) ->
  0 < coin_prob theta xs ->
  - l <= - ln (coin_prob theta xs) + / 2 * ln (INR (length xs)) + ln 2.
Proof. exact ktb_redundancy. Qed.
Print Assumptions C05_ktbinary_redundancy.
Example C05_ex : exists s l,
  Forall (fun x => x = 0%Z \/ x = 1%Z) [0; 1; 1]%Z /\
  run KTB_model ktb_init (unit_events [0; 1; 1]%Z) = Ok (s, l) /\ 0 < coin_prob (2 / 3) [0; 1; 1]%Z.
Proof.
  assert (Hb : bits [0; 1; 1]%Z) by (repeat apply Forall_cons; try apply Forall_nil; tauto).
  destruct (ktb_unit_run _ Hb) as (s & l & Hr). exists s, l. split; [exact Hb|]. split; [exact Hr|].
  unfold coin_prob, occ. cbn. lra.
Qed.
