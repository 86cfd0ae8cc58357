(** C24: PTW.log_predict and PTW.update. They agree when the number of symbols seen is not a
    positive multiple of the minimal partition length; on such boundaries (with the default
    minimal length 1: always after the first update) the predictions sum to more than one. *)
From Coq Require Import Lra.
From Verif Require Import Model.PTW Model.KT Spec.PTWSpec Proofs.PTWPredict Proofs.PTWProps.
From Verif Require Import Proofs.KTFacts Proofs.KTBinFacts.
Open Scope R_scope.

(** Missing from the full property: the boundaries, where it is false (below). *)
Theorem C24_ptw_log_predict_partial : forall S (M : model S) A okh okw Inv,
  steps M A okh okw Inv -> forall mk, (forall t, Inv (mk t)) -> forall m evs e s l,
  Forall (ok_event A okh okw) evs -> ok_event A okh okw e ->
  (evs = [] \/ length evs mod 2 ^ m <> 0)%nat ->
  feed (fun t => ptw_update M m (mk t)) 0 (ptw_init m (mk 0%nat)) evs = Ok (s, l) ->
  exists s' l', ptw_update M m (mk (length evs)) s (ev_sym e) (ev_hist e) (ev_wt e) = Ok (s', l') /\
    ptw_log_predict M s (ev_sym e) (ev_hist e) = Ok l'.
Proof. exact @ptw_predict_between. Qed.
Print Assumptions C24_ptw_log_predict_partial.

Theorem C24_ptwf_log_predict_partial : forall S (M : model S) A okh okw Inv,
  steps M A okh okw Inv -> forall mk, (forall t, Inv (mk t)) -> forall m len evs e s l,
  Forall (ok_event A okh okw) evs -> ok_event A okh okw e -> (length evs < len)%nat ->
  (evs = [] \/ length evs mod 2 ^ m <> 0)%nat ->
  feed (fun t => ptwf_update M m (mk t)) 0 (ptwf_init m len (mk 0%nat)) evs = Ok (s, l) ->
  exists s' l', ptwf_update M m (mk (length evs)) s (ev_sym e) (ev_hist e) (ev_wt e) = Ok (s', l') /\
    ptwf_log_predict M s (ev_sym e) (ev_hist e) = Ok l'.
Proof. exact @ptwf_predict_between. Qed.
Print Assumptions C24_ptwf_log_predict_partial.

(** On every boundary the predictions are not a distribution. *)
Theorem C24_ptw_boundary_not_normalised : forall S (M : model S) A okh okw Inv,
  lawful M A okh okw Inv -> forall mk, (forall t, Inv (mk t)) -> forall m,
  (2 <= length A)%nat -> forall evs s l h w,
  Forall (ok_event A okh okw) evs -> okh h -> okw w ->
  length evs <> 0%nat -> (length evs mod 2 ^ m = 0)%nat ->
  feed (fun t => ptw_update M m (mk t)) 0 (ptw_init m (mk 0%nat)) evs = Ok (s, l) ->
  1 < Rsum (map (fun a => match ptw_log_predict M s a h with Ok l => exp l | Err _ => 0 end) A).
Proof. exact @ptw_predict_boundary. Qed.
Print Assumptions C24_ptw_boundary_not_normalised.

Theorem C24_ptwf_boundary_not_normalised : forall S (M : model S) A okh okw Inv,
  lawful M A okh okw Inv -> forall mk, (forall t, Inv (mk t)) -> forall m,
  (2 <= length A)%nat -> forall len evs s l h w,
  Forall (ok_event A okh okw) evs -> okh h -> okw w -> (length evs < len)%nat ->
  length evs <> 0%nat -> (length evs mod 2 ^ m = 0)%nat ->
  feed (fun t => ptwf_update M m (mk t)) 0 (ptwf_init m len (mk 0%nat)) evs = Ok (s, l) ->
  1 < Rsum (map (fun a => match ptwf_log_predict M s a h with Ok l => exp l | Err _ => 0 end) A).
Proof. exact @ptwf_predict_boundary. Qed.
Print Assumptions C24_ptwf_boundary_not_normalised.

Example C24_ex : lawful KTB_model [0; 1]%Z any_hist nonneg ktb_inv /\ ktb_inv ktb_init /\
  (3 mod 2 ^ 1 <> 0)%nat /\ (4 mod 2 ^ 1 = 0)%nat.
Proof. split; [apply ktb_lawful|]. split; [apply ktb_inv_init|]. split; [discriminate|reflexivity]. Qed.

(** Witness: PTW(KTBinary) after one update(0). *)
Theorem C24_ptw_log_predict_refuted : exists s l0 p0 p1 s' l,
  ptw_update KTB_model 0 ktb_init (ptw_init 0 ktb_init) 0 [] 1 = Ok (s, l0) /\
  ptw_log_predict KTB_model s 0 [0%Z] = Ok p0 /\ ptw_log_predict KTB_model s 1 [0%Z] = Ok p1 /\
  ptw_update KTB_model 0 ktb_init s 0 [0%Z] 1 = Ok (s', l) /\
  exp p0 = 7 / 8 /\ exp p1 = 5 / 8 /\ exp l = 5 / 8.
Proof. exact ptw_log_predict_refuted. Qed.
Print Assumptions C24_ptw_log_predict_refuted.
