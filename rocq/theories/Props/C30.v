(** C30: the models FMN stores. [2 ^ m] is the period. *)
From Verif Require Import Model.FMN Spec.FMNSpec Proofs.FMNFacts Proofs.FMNProps.
From Verif Require Props.C29.
Open Scope R_scope.

(** Offered to the store: the initial model and then one per period; each is a copy of a model
    retained earlier, updated with the data seen since. *)
Theorem C30_offered : forall S T (M : model S) (C : store_class T) TI A okh okw Inv,
  store_law C TI -> forall m, steps M A okh okw Inv -> forall fresh evs s0 s l,
  Inv fresh -> Forall (ok_event A okh okw) evs ->
  fmn_init C m fresh = Ok s0 -> run (FMN_model M C m) s0 evs = Ok (s, l) ->
  exists xs, length xs = (1 + length evs / 2 ^ m)%nat /\ hd_error xs = Some fresh /\
    st_adds C (st_empty C) xs = Ok (fm_models s) /\
    forall i x, nth_error xs (Datatypes.S i) = Some x ->
      reused M C m s0 evs (Datatypes.S i * 2 ^ m) x.
Proof. exact @fmn_offered. Qed.
Print Assumptions C30_offered.

(** With a LogStore: log2(1 + t/period) + 1 models, the oldest of them the initial one. *)
Theorem C30_logstore_retains : forall S (M : model S) A okh okw Inv m fresh evs s0 s l,
  steps M A okh okw Inv -> Inv fresh -> Forall (ok_event A okh okw) evs ->
  fmn_init (LogStore_class S) m fresh = Ok s0 ->
  run (FMN_model M (LogStore_class S) m) s0 evs = Ok (s, l) ->
  length (ls_iter (fm_models s)) = (Nat.log2 (1 + length evs / 2 ^ m) + 1)%nat /\
  nth_error (ls_iter (fm_models s)) (Nat.log2 (1 + length evs / 2 ^ m)) = Some fresh.
Proof. exact @fmn_logstore_retains. Qed.
Print Assumptions C30_logstore_retains.

Theorem C30_uniform_retains : forall S (M : model S) A okh okw Inv m fresh evs s0 s l,
  steps M A okh okw Inv -> Inv fresh -> Forall (ok_event A okh okw) evs ->
  fmn_init (LogStoreUniform_class S) m fresh = Ok s0 ->
  run (FMN_model M (LogStoreUniform_class S) m) s0 evs = Ok (s, l) ->
  (length (us_iter (fm_models s)) <= Nat.log2 (1 + length evs / 2 ^ m) + 2)%nat /\
  hd_error (us_items (fm_models s)) = Some fresh.
Proof. exact @fmn_uniform_retains. Qed.
Print Assumptions C30_uniform_retains.

(** [C29.C29_ex] is a run meeting the hypotheses (3 symbols, period 2). *)
Example C30_ex : (1 + 3 / 2 ^ 1 = 2)%nat /\ (Nat.log2 2 + 1 = 2)%nat.
Proof. split; reflexivity. Qed.
