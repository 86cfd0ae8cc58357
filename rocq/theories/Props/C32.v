(** C32: Factored routes each symbol to the model of its position. *)
From Coq Require Import Lra.
From Verif Require Import Model.Factored Model.KT Spec.SeqSpec Proofs.SeqFacts.
From Verif Require Import Proofs.KTFacts Proofs.KTBinFacts.
Open Scope R_scope.

Theorem C32_log_predict : forall S (M : model S) s a h m,
  nth_error s (length h mod length s) = Some m ->
  fac_log_predict M s a h = m_logp M m a h.
Proof. exact @fac_log_predict_spec. Qed.
Print Assumptions C32_log_predict.

(** Missing: the caller's weight is replaced by 1 (see below). *)
Theorem C32_update_partial : forall S (M : model S) s a h w s' l,
  fac_update M s a h w = Ok (s', l) ->
  let i := (length h mod length s)%nat in
  exists m m', nth_error s i = Some m /\ m_update M m a h 1 = Ok (m', l) /\
    nth_error s' i = Some m' /\ length s' = length s /\
    forall j, j <> i -> nth_error s' j = nth_error s j.
Proof. exact @fac_update_route. Qed.
Print Assumptions C32_update_partial.

(** The total log probability is the sum of the factors' on their own symbols. *)
Theorem C32_total : forall S (M : model S) evs s s' l,
  run (Factored_model M) s evs = Ok (s', l) -> s <> [] ->
  length s' = length s /\
  exists ls : nat -> R, (forall i m, nth_error s i = Some m ->
    exists m', nth_error s' i = Some m' /\ run M m (routed (length s) i evs) = Ok (m', ls i)) /\
  l = Rsum (map ls (seq 0 (length s))).
Proof. exact @fac_run. Qed.
Print Assumptions C32_total.

Theorem C32_lawful : forall S (M : model S) A okh okw Inv,
  lawful M A okh okw Inv -> okw 1 ->
  lawful (Factored_model M) A okh (fun _ => True) (fun s => s <> [] /\ Forall Inv s).
Proof. exact @fac_lawful. Qed.
Print Assumptions C32_lawful.

(** Factored((Dumb(), m)) scores exactly the odd positions with m. *)
Theorem C32_dumb : forall S (M : model S) m evs s' l,
  run (Factored_model (either_model Dumb_model M)) [inl tt; inr m] evs = Ok (s', l) ->
  exists m', s' = [inl tt; inr m'] /\ run M m (routed 2 1 evs) = Ok (m', l).
Proof. exact @fac_dumb. Qed.
Print Assumptions C32_dumb.

Example C32_ex : lawful (Factored_model KTB_model) [0; 1]%Z any_hist (fun _ => True)
    (fun s => s <> [] /\ Forall ktb_inv s) /\
  ([ktb_init; ktb_init] <> [] /\ Forall ktb_inv [ktb_init; ktb_init]) /\
  routed 2 1 [Event 0 [] 3; Event 1 [0%Z] 3; Event 1 [0; 1]%Z 3; Event 0 [0; 1; 1]%Z 3] =
    [Event 1 [0%Z] 1; Event 0 [0; 1; 1]%Z 1].
Proof.
  split; [apply (fac_lawful KTB_model _ _ nonneg); [apply ktb_lawful|unfold nonneg; lra]|].
  split; [|reflexivity]. split; [discriminate|]. repeat apply Forall_cons; try apply Forall_nil; apply ktb_inv_init.
Qed.

(** The weight does not reach the factor: KTBinary after update(0, weight=2) predicts 0 with
    5/6, Factored([KTBinary()]) after the same call with 3/4. *)
Theorem C32_weight_refuted : exists k k1 l1 p1 s2 l2 p2,
  m_update KTB_model k 0 [] 2 = Ok (k1, l1) /\ m_logp KTB_model k1 0 [] = Ok p1 /\ exp p1 = 5 / 6 /\
  fac_update KTB_model [k] 0 [] 2 = Ok (s2, l2) /\ fac_log_predict KTB_model s2 0 [] = Ok p2 /\ exp p2 = 3 / 4.
Proof. exact fac_weight_refuted. Qed.
Print Assumptions C32_weight_refuted.

Theorem C32_weight_never_matters : forall S (M : model S) s a h w w',
  fac_update M s a h w = fac_update M s a h w'.
Proof. exact @fac_weight_ignored. Qed.
Print Assumptions C32_weight_never_matters.
