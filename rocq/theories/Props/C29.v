(** C29: FMN.update is a probability measure. *)
From Coq Require Import Lra.
From Verif Require Import Model.FMN Model.KT Spec.FMNSpec Proofs.FMNFacts Proofs.FMNProps.
From Verif Require Import Proofs.KTFacts Proofs.KTBinFacts.
Open Scope R_scope.

(** Every run succeeds ... *)
Theorem C29_fmn_total : forall S T (M : model S) (C : store_class T) TI A okh okw Inv,
  store_law C TI -> forall m, steps M A okh okw Inv -> forall fresh evs,
  Inv fresh -> Forall (ok_event A okh okw) evs ->
  exists s0 s l, fmn_init C m fresh = Ok s0 /\ run (FMN_model M C m) s0 evs = Ok (s, l).
Proof. exact @fmn_total. Qed.
Print Assumptions C29_fmn_total.

(** ... and in the state it reaches, the probabilities returned by update sum to one. *)
Theorem C29_fmn_update_normalised : forall S T (M : model S) (C : store_class T) TI A okh okw Inv,
  store_law C TI -> forall m, lawful M A okh okw Inv -> forall fresh evs s0 s l h w,
  Inv fresh -> Forall (ok_event A okh okw) evs -> okh h -> okw w ->
  fmn_init C m fresh = Ok s0 -> run (FMN_model M C m) s0 evs = Ok (s, l) ->
  Rsum (map (fun a => upd_prob (fmn_update M C m) s a h w) A) = 1.
Proof. exact @fmn_update_norm. Qed.
Print Assumptions C29_fmn_update_normalised.

(** Both stores of model.py meet the hypothesis. *)
Theorem C29_logstore_law : forall S, store_law (LogStore_class S) (fun s => s <> []).
Proof. exact logstore_law. Qed.
Print Assumptions C29_logstore_law.
Theorem C29_uniform_law : forall S, store_law (LogStoreUniform_class S)
  (fun s => exists xs, xs <> [] /\ us_adds us_init xs = Ok s).
Proof. exact uniform_law. Qed.
Print Assumptions C29_uniform_law.

(** FMN inherits PTW.log_predict (C24): right between period boundaries, and not a
    distribution on them. *)
Theorem C29_fmn_log_predict_between : forall S T (M : model S) (C : store_class T) TI A okh okw Inv,
  store_law C TI -> forall m, steps M A okh okw Inv -> forall fresh evs e s0 s l,
  Inv fresh -> Forall (ok_event A okh okw) evs -> ok_event A okh okw e ->
  (evs = [] \/ length evs mod 2 ^ m <> 0)%nat ->
  fmn_init C m fresh = Ok s0 -> run (FMN_model M C m) s0 evs = Ok (s, l) ->
  exists s' l', fmn_update M C m s (ev_sym e) (ev_hist e) (ev_wt e) = Ok (s', l') /\
    fmn_log_predict M s (ev_sym e) (ev_hist e) = Ok l'.
Proof. exact @fmn_log_predict_between. Qed.
Print Assumptions C29_fmn_log_predict_between.

Theorem C29_fmn_boundary_not_normalised : forall S T (M : model S) (C : store_class T) TI A okh okw Inv,
  store_law C TI -> forall m, lawful M A okh okw Inv -> forall fresh evs s0 s l h w,
  (2 <= length A)%nat -> Inv fresh -> Forall (ok_event A okh okw) evs -> okh h -> okw w ->
  length evs <> 0%nat -> (length evs mod 2 ^ m = 0)%nat ->
  fmn_init C m fresh = Ok s0 -> run (FMN_model M C m) s0 evs = Ok (s, l) ->
  1 < Rsum (map (fun a => match fmn_log_predict M s a h with Ok l => exp l | Err _ => 0 end) A).
Proof. exact @fmn_log_predict_boundary. Qed.
Print Assumptions C29_fmn_boundary_not_normalised.

(** FMN(KTBinary, min_partition_length=2, LogStore) after three symbols. *)
Example C29_ex : exists s0 s l,
  lawful KTB_model [0; 1]%Z any_hist nonneg ktb_inv /\ ktb_inv ktb_init /\
  Forall (ok_event [0; 1]%Z any_hist nonneg) [Event 0 [] 1; Event 1 [0%Z] 1; Event 1 [0; 1]%Z 1] /\
  fmn_init (LogStore_class _) 1 ktb_init = Ok s0 /\
  run (FMN_model KTB_model (LogStore_class _) 1) s0
      [Event 0 [] 1; Event 1 [0%Z] 1; Event 1 [0; 1]%Z 1] = Ok (s, l).
Proof.
  assert (H : Forall (ok_event [0; 1]%Z any_hist nonneg) [Event 0 [] 1; Event 1 [0%Z] 1; Event 1 [0; 1]%Z 1]).
  { repeat apply Forall_cons; try apply Forall_nil; (split; [cbn; auto|split; [exact I|cbn; unfold nonneg; lra]]). }
  destruct (fmn_total KTB_model (LogStore_class _) _ _ _ _ _ (logstore_law _) 1
    (law_step _ _ _ _ _ ktb_lawful) ktb_init _ ktb_inv_init H) as (s0 & s & l & H0 & Hr).
  exists s0, s, l. split; [apply ktb_lawful|]. split; [apply ktb_inv_init|]. split; [exact H|]. split; assumption.
Qed.
