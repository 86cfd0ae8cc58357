(** C63: PTW.map. [posterior d s evs t k]: the probability of the data and of position t lying in a
    segment that begins at k, in the mixture over binary partitions that PTW computes (C21).
    [mk t] is the base model that a segment beginning at time t starts from. *)
From Coq Require Import Lra.
From Verif Require Import Model.PTW Model.KT Model.CtwPTW Model.CtwFMN Spec.PTWMapSpec.
From Verif Require Import Proofs.PTWMap Proofs.PTWMapTop Proofs.KTFacts Proofs.KTBinFacts.
From Verif Require Props.C20 Props.C62.
Open Scope R_scope.
Notation no_hist := (fun h : list Z => h = []).

(** The meaning of [start_at], on which [posterior] is built. *)
Theorem C63_start_at : forall m p d s t, is_part d p -> (t < 2 ^ (m + d))%nat ->
  exists len, In (start_at m d s p t, len) (segments m d s p) /\
    (start_at m d s p t <= s + t < start_at m d s p t + len)%nat.
Proof. exact start_at_seg. Qed.
Print Assumptions C63_start_at.

(** map returns the base of an open segment with the best score. It is not far from the best: no
    beginning of the segment of the last symbol has a posterior more than [2^d] times as large,
    where [2^d] is about the number of symbols seen. What is missing: the best itself. *)
Theorem C63_map_partial : forall S (M : model S) mk m A okh okw Inv,
  steps M A okh okw Inv -> (forall t, Inv (mk t)) -> forall evs s l, Forall (ok_event A okh okw) evs ->
  feed (fun t => ptw_update M m (mk t)) 0 (ptw_init m (mk 0%nat)) evs = Ok (s, l) ->
  let d := levels m (length evs) in
  exists k w lk, run M (mk k) (skipn k evs) = Ok (ptw_map s, lk) /\ In (k, w) (open_scores M mk m d 0 evs 1) /\
    (forall j v, In (j, v) (open_scores M mk m d 0 evs 1) -> v <= w) /\
    forall j, posterior M mk m d 0 evs (length evs - 1) j <= 2 ^ d * posterior M mk m d 0 evs (length evs - 1) k.
Proof. exact @ptw_map_best. Qed.
Print Assumptions C63_map_partial.

Theorem C63_fixed_map_partial : forall S (M : model S) mk m A okh okw Inv,
  steps M A okh okw Inv -> (forall t, Inv (mk t)) -> forall len evs s l, Forall (ok_event A okh okw) evs ->
  (length evs <= len)%nat ->
  feed (fun t => ptwf_update M m (mk t)) 0 (ptwf_init m len (mk 0%nat)) evs = Ok (s, l) ->
  let d := (fixed_height_of len - m)%nat in
  exists k w lk, run M (mk k) (skipn k evs) = Ok (ptwf_map s, lk) /\ In (k, w) (open_scores M mk m d 0 evs 1) /\
    (forall j v, In (j, v) (open_scores M mk m d 0 evs 1) -> v <= w) /\
    forall j, posterior M mk m d 0 evs (length evs - 1) j <= 2 ^ d * posterior M mk m d 0 evs (length evs - 1) k.
Proof. exact @ptwf_map_best. Qed.
Print Assumptions C63_fixed_map_partial.

Theorem C63_ctw_map_partial : forall S (Q : probseq S) mk A okw Inv,
  (forall s a h w s' l, m_update (q_model Q) s a h w = Ok (s', l) -> q_lp Q s' = q_lp Q s + l) ->
  (forall t, q_lp Q (mk t) = 0) -> steps (q_model Q) A no_hist okw Inv -> (forall t, Inv (mk t)) ->
  forall H evs s l, Forall (ok_event A no_hist okw) evs -> (length evs <= 2 ^ H)%nat ->
  feed (fun t => qptw_update Q (mk t)) 0 (qptw_init (mk 0%nat) H) evs = Ok (s, l) ->
  exists b k w lk, qptw_map Q s = Ok b /\ run (q_model Q) (mk k) (skipn k evs) = Ok (b, lk) /\
    In (k, w) (open_scores (q_model Q) mk 0 H 0 evs 1) /\
    (forall j v, In (j, v) (open_scores (q_model Q) mk 0 H 0 evs 1) -> v <= w) /\
    forall j, posterior (q_model Q) mk 0 H 0 evs (length evs - 1) j <=
              2 ^ H * posterior (q_model Q) mk 0 H 0 evs (length evs - 1) k.
Proof. exact @qptw_map_best. Qed.
Print Assumptions C63_ctw_map_partial.

(** The score is between the posterior weight and [2^d] times it. *)
Theorem C63_scores : forall S (M : model S) mk m A okh okw Inv,
  steps M A okh okw Inv -> (forall t, Inv (mk t)) -> forall d s evs w k v, Forall (ok_event A okh okw) evs ->
  0 <= w -> (length evs <= 2 ^ (m + d))%nat -> In (k, v) (open_scores M mk m d s evs w) ->
  v <= w * (2 ^ d * posterior M mk m d s evs (length evs - 1) k).
Proof. exact @score_le_post. Qed.
Print Assumptions C63_scores.
Theorem C63_scores_lower : forall S (M : model S) mk m A okh okw Inv,
  steps M A okh okw Inv -> (forall t, Inv (mk t)) -> forall d s evs w j, Forall (ok_event A okh okw) evs ->
  0 <= w -> (length evs <= 2 ^ (m + d))%nat ->
  posterior M mk m d s evs (length evs - 1) j = 0 \/
  exists v, In (j, v) (open_scores M mk m d s evs w) /\ w * posterior M mk m d s evs (length evs - 1) j <= v.
Proof. exact @post_le_score. Qed.
Print Assumptions C63_scores_lower.

(** The base returned need not be the maximum a posteriori predictor, neither for the segment of the
    last symbol (position 2) nor for that of the next symbol (position 3): PTWFixedLength(8) over
    KTBinary on 0 0 1 returns the base that has seen only the 1. *)
Theorem C63_map_refuted : let evs := [Event 0 [] 1; Event 0 [0%Z] 1; Event 1 [0; 0]%Z 1] in
  exists s l lk, feed (fun _ => ptwf_update KTB_model 0 ktb_init) 0 (ptwf_init 0 8 ktb_init) evs = Ok (s, l) /\
    run KTB_model ktb_init (skipn 2 evs) = Ok (ptwf_map s, lk) /\
    forall t, t = 2%nat \/ t = 3%nat ->
      posterior KTB_model (fun _ => ktb_init) 0 3 0 evs t 2 < posterior KTB_model (fun _ => ktb_init) 0 3 0 evs t 0.
Proof. exact map_not_best. Qed.
Print Assumptions C63_map_refuted.

(** The runs of [C20.C20_ex] (model.py) and [C62.C62_ex] (ctw.KT as base) meet the hypotheses. In a
    span of 4 split into halves, the second of them again, position 3 lies in the segment at 3. *)
Example C63_ex : start_at 0 2 0 (Halves Whole (Halves Whole Whole)) 3 = 3%nat /\
  start_at 0 2 0 (Halves Whole (Halves Whole Whole)) 1 = 0%nat /\
  exists s l, feed (fun _ => ptw_update KTB_model 0 ktb_init) 0 (ptw_init 0 ktb_init)
    [Event 1 [] 1; Event 0 [] 1; Event 0 [] 1] = Ok (s, l).
Proof.
  split; [reflexivity|]. split; [reflexivity|].
  destruct (PTWTop.ptw_feed KTB_model [0; 1]%Z any_hist nonneg ktb_inv (law_step _ _ _ _ _ ktb_lawful) (fun _ => ktb_init)
    (fun _ => ktb_inv_init) 0 [Event 1 [] 1; Event 0 [] 1; Event 0 [] 1]) as (s & H & _).
  - repeat apply Forall_cons; try apply Forall_nil; unfold ok_event, any_hist, nonneg; cbn; intuition lra.
  - exists s, (pt_lp s). exact H.
Qed.
