(** C22: PTW.update yields a coherent probability measure with unknown horizon. *)
From Coq Require Import Lra.
From Verif Require Import Model.PTW Model.KT Spec.PTWSpec Proofs.PTWTop Proofs.PTWNorm.
From Verif Require Import Proofs.KTFacts Proofs.KTBinFacts.
From Verif Require Props.C20.
Open Scope R_scope.

(** Each update returns the log of PTW_h(x_1..x_t+1)/PTW_h(x_1..x_t), where h is the height
    needed for t+1 symbols. *)
Theorem C22_ptw_update_ratio : forall S (M : model S) A okh okw Inv,
  steps M A okh okw Inv -> forall mk, (forall t, Inv (mk t)) -> forall m evs e,
  Forall (ok_event A okh okw) evs -> ok_event A okh okw e ->
  exists s l s' l', feed (fun t => ptw_update M m (mk t)) 0 (ptw_init m (mk 0%nat)) evs = Ok (s, l) /\
    ptw_update M m (mk (length evs)) s (ev_sym e) (ev_hist e) (ev_wt e) = Ok (s', l') /\
    let h := levels m (Datatypes.S (length evs)) in
    exp l' = ptw_prob M mk m h 0 (evs ++ [e]) / ptw_prob M mk m h 0 evs.
Proof. exact @ptw_ratio. Qed.
Print Assumptions C22_ptw_update_ratio.

Theorem C22_levels : forall m n d, (n <= 2 ^ (m + d))%nat <-> (levels m n <= d)%nat.
Proof. exact PTWFacts.levels_le. Qed.
Print Assumptions C22_levels.

Theorem C22_ptw_update_normalised : forall S (M : model S) A okh okw Inv,
  lawful M A okh okw Inv -> forall mk, (forall t, Inv (mk t)) -> forall m evs s l h w,
  Forall (ok_event A okh okw) evs -> okh h -> okw w ->
  feed (fun t => ptw_update M m (mk t)) 0 (ptw_init m (mk 0%nat)) evs = Ok (s, l) ->
  Rsum (map (fun a => upd_prob (ptw_update M m (mk (length evs))) s a h w) A) = 1.
Proof. exact @ptw_update_norm. Qed.
Print Assumptions C22_ptw_update_normalised.

(** The same for PTWFixedLength within its length. *)
Theorem C22_ptwf_update_normalised : forall S (M : model S) A okh okw Inv,
  lawful M A okh okw Inv -> forall mk, (forall t, Inv (mk t)) -> forall m len evs s l h w,
  Forall (ok_event A okh okw) evs -> okh h -> okw w -> (length evs < len)%nat ->
  feed (fun t => ptwf_update M m (mk t)) 0 (ptwf_init m len (mk 0%nat)) evs = Ok (s, l) ->
  Rsum (map (fun a => upd_prob (ptwf_update M m (mk (length evs))) s a h w) A) = 1.
Proof. exact @ptwf_update_norm. Qed.
Print Assumptions C22_ptwf_update_normalised.
Example C22_ex : lawful KTB_model [0; 1]%Z any_hist nonneg ktb_inv /\ ktb_inv ktb_init /\ nonneg 1.
Proof. split; [apply ktb_lawful|]. split; [apply ktb_inv_init|unfold nonneg; lra]. Qed.
