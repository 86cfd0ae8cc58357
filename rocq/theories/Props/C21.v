(** C21: PTW is a mixture over binary temporal partitions and competes with each of them. *)
From Coq Require Import Lra.
From Verif Require Import Model.PTW Spec.PTWSpec Proofs.PTWMixture Proofs.PTWProps.
From Verif Require Props.C20.
Open Scope R_scope.

Theorem C21_ptw_mixture : forall S (M : model S) A okh okw Inv,
  steps M A okh okw Inv -> forall mk, (forall t, Inv (mk t)) -> forall m len evs,
  Forall (ok_event A okh okw) evs -> (length evs <= len)%nat ->
  exists s l, feed (fun t => ptwf_update M m (mk t)) 0 (ptwf_init m len (mk 0%nat)) evs = Ok (s, l) /\
    exp l = Rsum (map (fun p => (/ 2) ^ pcost (fixed_height_of len - m) p *
                                part_prob M mk m (fixed_height_of len - m) 0 p evs)
                      (all_parts (fixed_height_of len - m))).
Proof. exact @ptwf_mixture. Qed.
Print Assumptions C21_ptw_mixture.

(** [all_parts] lists exactly the partitions of depth at most d, each once, with weights
    summing to one; their segments tile the whole, and the partition probability is the
    product of the base probabilities of the segments. *)
Theorem C21_all_parts : forall d p, In p (all_parts d) <-> is_part d p.
Proof. exact all_parts_spec. Qed.
Print Assumptions C21_all_parts.
Theorem C21_all_parts_nodup : forall d, NoDup (all_parts d).
Proof. exact all_parts_nodup. Qed.
Print Assumptions C21_all_parts_nodup.
Theorem C21_part_prior : forall S (M : model S) (mk : nat -> S) (m : nat) d,
  Rsum (map (fun p => (/ 2) ^ pcost d p) (all_parts d)) = 1.
Proof. exact @part_prior. Qed.
Print Assumptions C21_part_prior.
Theorem C21_segments_tile : forall m p d s, is_part d p ->
  tiles s (segments m d s p) (s + 2 ^ (m + d)).
Proof. exact segments_tile. Qed.
Print Assumptions C21_segments_tile.
Theorem C21_part_prob_segments : forall S (M : model S) mk m p d s evs, is_part d p ->
  (length evs <= 2 ^ (m + d))%nat ->
  part_prob M mk m d s p evs =
  Rprod (map (fun sg => seq_prob M (mk (fst sg)) (firstn (snd sg) (skipn (fst sg - s) evs)))
             (segments m d s p)).
Proof. exact @part_prob_segments. Qed.
Print Assumptions C21_part_prob_segments.

(** Log loss at most that of any partition plus cost * ln 2. *)
Theorem C21_ptw_regret : forall S (M : model S) A okh okw Inv,
  steps M A okh okw Inv -> forall mk, (forall t, Inv (mk t)) -> forall m len evs p,
  Forall (ok_event A okh okw) evs -> (length evs <= len)%nat ->
  is_part (fixed_height_of len - m) p ->
  exists s l, feed (fun t => ptwf_update M m (mk t)) 0 (ptwf_init m len (mk 0%nat)) evs = Ok (s, l) /\
    - l <= - ln (part_prob M mk m (fixed_height_of len - m) 0 p evs) +
           INR (pcost (fixed_height_of len - m) p) * ln 2.
Proof. exact @ptwf_regret. Qed.
Print Assumptions C21_ptw_regret.

(** For any change points there is a partition splitting at them: k change points cost
    O(k log t) nats, also when the length is not known in advance. *)
Theorem C21_ptw_changepoints : forall S (M : model S) A okh okw Inv mk m cps evs,
  steps M A okh okw Inv -> (forall t, Inv (mk t)) ->
  Forall (fun c => c mod 2 ^ m = 0)%nat cps -> Forall (ok_event A okh okw) evs ->
  let d := levels m (length evs) in
  exists p s l, is_part d p /\ respects cps (segments m d 0 p) /\
    feed (fun t => ptw_update M m (mk t)) 0 (ptw_init m (mk 0%nat)) evs = Ok (s, l) /\
    - l <= - ln (part_prob M mk m d 0 p evs) + INR (1 + 2 * length cps * d) * ln 2 +
           INR (pred d) * ln (3 / 2).
Proof. exact @ptw_changepoints. Qed.
Print Assumptions C21_ptw_changepoints.

(** [C20.C20_ex] meets the hypotheses; a partition of 8 symbols into 4 + 2 + 2. *)
Example C21_ex : is_part 2 (Halves Whole (Halves Whole Whole)) /\
  pcost 2 (Halves Whole (Halves Whole Whole)) = 3%nat /\
  segments 1 2 0 (Halves Whole (Halves Whole Whole)) = [(0, 4); (4, 2); (6, 2)]%nat.
Proof. repeat split. Qed.
