(** PTW and FMN over KTBinary against a coin whose bias changes [k] times. *)
From Coq Require Import Lra.
From Verif Require Import Model.KT Model.PTW Model.FMN Spec.SourceSpec Spec.PTWSpec Spec.FMNSpec.
From Verif Require Import Proofs.RealFacts Proofs.PyFacts Proofs.ProbFacts.
From Verif Require Import Proofs.KTFacts Proofs.KTBinFacts Proofs.KTRedundancy Proofs.PTWFacts Proofs.PTWMixture Proofs.PTWTop Proofs.PTWProps.
From Verif Require Import Proofs.StoreFacts Proofs.FMNFacts Proofs.FMNProps Proofs.SourceFacts.
Open Scope R_scope.

Lemma ktb_mk_inv : forall t : nat, ktb_inv ((fun _ => ktb_init) t).
Proof. intros t. exact ktb_inv_init. Qed.

(** A partition that is cheap to describe, has few segments, and loses little to the source. *)
Lemma drift_partition theta cps m d evs : (forall t, 0 <= theta t <= 1) -> changes_at theta cps ->
  Forall (fun c => c mod 2 ^ m = 0)%nat cps -> unit_bits evs -> (length evs <= 2 ^ (m + d))%nat ->
  0 < drift_prob theta 0 (syms evs) ->
  exists p, is_part d p /\ (pcost d p <= 1 + 2 * length cps * d)%nat /\
    (length (segments m d 0 p) <= 1 + length cps * d)%nat /\
    - ln (part_prob KTB_model (fun _ => ktb_init) m d 0 p evs) <=
    - ln (drift_prob theta 0 (syms evs)) + INR (1 + length cps * d) * learn (length evs).
Proof.
  intros Ht Hch Hc Hu Hlen Hpos. assert (Hm : (2 ^ m <> 0)%nat) by (apply Nat.pow_nonzero; lia).
  destruct (partition_for m cps Hc d 0 (Nat.mod_0_l _ Hm)) as (p & Hp & Hr & Hcost & Hsegs).
  pose proof (filter_length_le' (inside 0 (0 + 2 ^ (m + d))) cps) as Hfl.
  exists p. split; [exact Hp|]. split; [nia|]. assert (Hsl : (length (segments m d 0 p) <= 1 + length cps * d)%nat) by nia.
  split; [exact Hsl|].
  pose proof (part_drift theta cps m (length evs) Ht Hch p d 0 evs (le_n _) Hlen Hu Hr) as H.
  apply ln_le in H; [|apply Rmult_lt_0_compat; [exact Hpos|apply exp_pos]].
  rewrite ln_mult, ln_exp in H by (auto using exp_pos).
  apply le_INR in Hsl. pose proof (learn_nonneg (length evs)). nra.
Qed.

Lemma ptw_drift theta cps m evs : (forall t, 0 <= theta t <= 1) -> changes_at theta cps ->
  Forall (fun c => c mod 2 ^ m = 0)%nat cps -> unit_bits evs -> 0 < drift_prob theta 0 (map ev_sym evs) ->
  let d := levels m (length evs) in let k := length cps in
  exists s l, run (PTW_model KTB_model m ktb_init) (ptw_init m ktb_init) evs = Ok (s, l) /\
    - l <= - ln (drift_prob theta 0 (map ev_sym evs)) + INR (1 + k * d) * learn (length evs)
           + INR (1 + 2 * k * d) * ln 2 + INR (pred d) * ln (3 / 2).
Proof.
  intros Ht Hch Hc Hu Hpos d k.
  assert (Hlen : (length evs <= 2 ^ (m + d))%nat) by (apply levels_le; unfold d; lia).
  destruct (drift_partition theta cps m d evs Ht Hch Hc Hu Hlen Hpos) as (p & Hp & Hcost & _ & Hl).
  pose proof (unit_bits_ok _ Hu) as Hev.
  destruct (ptw_unknown_regret KTB_model [0; 1]%Z any_hist nonneg ktb_inv (law_step _ _ _ _ _ ktb_lawful)
              (fun _ => ktb_init) ktb_mk_inv m evs p Hev Hp) as (s & l & Hf & Hreg).
  exists s, l. split.
  - rewrite <- Hf. symmetry. exact (feed_const (PTW_model KTB_model m ktb_init) 0 _ evs).
  - fold d in Hreg. apply le_INR in Hcost.
    assert (0 < ln 2) by (rewrite <- ln_1; apply ln_increasing; lra). fold k in Hl, Hcost. nra.
Qed.

(** With the length given in advance. *)
Lemma ptwf_drift theta cps m len evs : (forall t, 0 <= theta t <= 1) -> changes_at theta cps ->
  Forall (fun c => c mod 2 ^ m = 0)%nat cps -> unit_bits evs -> 0 < drift_prob theta 0 (map ev_sym evs) ->
  (length evs <= len)%nat ->
  let d := (fixed_height_of len - m)%nat in let k := length cps in
  exists s l, run (PTWF_model KTB_model m ktb_init) (ptwf_init m len ktb_init) evs = Ok (s, l) /\
    - l <= - ln (drift_prob theta 0 (map ev_sym evs)) + INR (1 + k * d) * learn (length evs)
           + INR (1 + 2 * k * d) * ln 2.
Proof.
  intros Ht Hch Hc Hu Hpos Hle d k.
  assert (Hlen : (length evs <= 2 ^ (m + d))%nat).
  { eapply Nat.le_trans; [exact (len_fixed len _ Hle)|]. apply Nat.pow_le_mono_r; [discriminate|]. unfold d. lia. }
  destruct (drift_partition theta cps m d evs Ht Hch Hc Hu Hlen Hpos) as (p & Hp & Hcost & _ & Hl).
  pose proof (unit_bits_ok _ Hu) as Hev.
  destruct (ptwf_regret KTB_model [0; 1]%Z any_hist nonneg ktb_inv (law_step _ _ _ _ _ ktb_lawful)
              (fun _ => ktb_init) ktb_mk_inv m len evs p Hev Hle Hp) as (s & l & Hf & Hreg).
  exists s, l. split.
  - rewrite <- Hf. symmetry. exact (feed_const (PTWF_model KTB_model m ktb_init) 0 _ evs).
  - fold d in Hreg. apply le_INR in Hcost.
    assert (0 < ln 2) by (rewrite <- ln_1; apply ln_increasing; lra). fold k in Hl, Hcost. nra.
Qed.

(** ** FMN: the model offered first is never given up by a LogStore. *)
Lemma Rsum_drop {X} (f : X -> R) (g : X -> bool) l : (forall x, In x l -> g x = false -> f x = 0) ->
  Rsum (map f (filter g l)) = Rsum (map f l).
Proof.
  intros H. induction l as [|x l IH]; [reflexivity|]. cbn [filter map]. rewrite Rsum_cons.
  assert (IH' := IH (fun y Hy => H y (or_intror Hy))). destruct (g x) eqn:E.
  - cbn [map]. rewrite Rsum_cons, IH'. reflexivity.
  - rewrite (H x (or_introl eq_refl) E), IH'. lra.
Qed.

Lemma fmn_retains_first evs s0 m b : unit_bits evs -> fmn_init (LogStore_class ktb) m ktb_init = Ok s0 ->
  (b <= length evs)%nat ->
  In ktb_init (retained KTB_model (LogStore_class ktb) m s0 evs b) /\ length (retained KTB_model (LogStore_class ktb) m s0 evs b) = (Nat.log2 (1 + b / 2 ^ m) + 1)%nat.
Proof.
  intros Hu H0 Hb.
  assert (Hu1 : unit_bits (firstn b evs)) by (apply Forall_firstn; exact Hu).
  destruct (fmn_total KTB_model (LogStore_class ktb) _ [0; 1]%Z any_hist nonneg ktb_inv (logstore_law ktb) m
     (law_step _ _ _ _ _ ktb_lawful) ktb_init (firstn b evs) ktb_inv_init (unit_bits_ok _ Hu1)) as (s0' & s & l & H0' & Hr).
  rewrite H0 in H0'. injection H0' as <-.
  unfold retained. rewrite Hr.
  destruct (fmn_logstore_retains KTB_model [0; 1]%Z any_hist nonneg ktb_inv m ktb_init (firstn b evs) s0 s l
     (law_step _ _ _ _ _ ktb_lawful) ktb_inv_init (unit_bits_ok _ Hu1) H0 Hr) as (Hlen & Hnth).
  rewrite firstn_length, Nat.min_l in * by exact Hb. split; [|exact Hlen].
  eapply nth_error_In. exact Hnth.
Qed.

Lemma fmn_drift theta cps m evs : (forall t, 0 <= theta t <= 1) -> changes_at theta cps ->
  Forall (fun c => c mod 2 ^ m = 0)%nat cps -> unit_bits evs -> 0 < drift_prob theta 0 (map ev_sym evs) ->
  let n := length evs in let d := levels m n in let k := length cps in
  exists s0 s l, fmn_init (LogStore_class ktb) m ktb_init = Ok s0 /\
    run (FMN_model KTB_model (LogStore_class ktb) m) s0 evs = Ok (s, l) /\
    - l <= - ln (drift_prob theta 0 (map ev_sym evs))
           + INR (1 + k * d) * (learn n + ln (INR (Nat.log2 (1 + n / 2 ^ m) + 1)))
           + INR (1 + 2 * k * d) * ln 2 + INR (pred d) * ln (3 / 2).
Proof.
  intros Ht Hch Hc Hu Hpos n d k.
  assert (Hlen : (length evs <= 2 ^ (m + d))%nat) by (apply levels_le; unfold d, n; lia).
  destruct (drift_partition theta cps m d evs Ht Hch Hc Hu Hlen Hpos) as (p & Hp & Hcost & Hsegs & Hl).
  pose proof (unit_bits_ok _ Hu) as Hev.
  destruct (fmn_total KTB_model (LogStore_class ktb) _ [0; 1]%Z any_hist nonneg ktb_inv (logstore_law ktb) m
     (law_step _ _ _ _ _ ktb_lawful) ktb_init evs ktb_inv_init Hev) as (s0 & s & l & H0 & Hr).
  exists s0, s, l. split; [exact H0|]. split; [exact Hr|].
  set (sgs := filter (fun sg : nat * nat => (fst sg <? length evs)%nat) (segments m d 0 p)).
  assert (Hin : forall sg, In sg sgs -> (fst sg <= length evs)%nat).
  { intros sg Hi. apply filter_In in Hi as [_ Hi]. apply Nat.ltb_lt in Hi. lia. }
  pose proof (fmn_competes KTB_model (LogStore_class ktb) _ [0; 1]%Z any_hist nonneg ktb_inv (logstore_law ktb) m
     (law_step _ _ _ _ _ ktb_lawful) ktb_init evs s0 s l p (fun _ => ktb_init) ktb_inv_init Hev H0 Hr Hp) as Hreg.
  cbv zeta in Hreg. fold n d in Hreg. change n with (length evs) in Hreg. fold sgs in Hreg.
  specialize (Hreg (fun sg Hi => proj1 (fmn_retains_first evs s0 m (fst sg) Hu H0 (Hin sg Hi)))).
  set (L := ln (INR (Nat.log2 (1 + n / 2 ^ m) + 1))).
  set (f := fun sg : nat * nat => - ln (seq_prob KTB_model ktb_init (firstn (snd sg) (skipn (fst sg) evs)))).
  assert (HL : 0 <= L).
  { unfold L. rewrite <- ln_1. apply ln_le; [lra|]. change 1 with (INR 1). apply le_INR. lia. }
  assert (Hsum : Rsum (map (fun sg => f sg + ln (INR (length (retained KTB_model (LogStore_class ktb) m s0 evs (fst sg))))) sgs)
                 <= Rsum (map f sgs) + INR (length sgs) * L).
  { rewrite <- (Rsum_const L sgs), <- Rsum_plus. apply Rsum_le. intros sg Hi.
    destruct (fmn_retains_first evs s0 m (fst sg) Hu H0 (Hin sg Hi)) as (_ & ->). apply Rplus_le_compat_l. unfold L.
    apply ln_le; [apply lt_0_INR; lia|]. apply le_INR. apply Nat.add_le_mono_r. apply Nat.log2_le_mono.
    apply Nat.add_le_mono_l. apply Nat.div_le_mono; [apply Nat.pow_nonzero; discriminate|]. exact (Hin sg Hi). }
  assert (Hpp : Rsum (map f sgs) = - ln (part_prob KTB_model (fun _ => ktb_init) m d 0 p evs)).
  { unfold sgs. rewrite Rsum_drop.
    - rewrite part_prob_segments by assumption.
      rewrite (Rprod_map_ext _ (fun sg => seq_prob KTB_model ktb_init (firstn (snd sg) (skipn (fst sg) evs)))).
      2:{ intros sg _. rewrite Nat.sub_0_r. reflexivity. }
      destruct (ln_Rprod (fun sg => seq_prob KTB_model ktb_init (firstn (snd sg) (skipn (fst sg) evs))) (segments m d 0 p)) as (_ & ->).
      + intros sg _. apply (steps_seq_prob_pos KTB_model [0; 1]%Z any_hist nonneg ktb_inv (law_step _ _ _ _ _ ktb_lawful)); [exact ktb_inv_init|].
        apply Forall_firstn, Forall_skipn, Hev.
      + unfold f. replace (- Rsum (map (fun sg => ln (seq_prob KTB_model ktb_init (firstn (snd sg) (skipn (fst sg) evs)))) (segments m d 0 p)))
          with (-1 * Rsum (map (fun sg => ln (seq_prob KTB_model ktb_init (firstn (snd sg) (skipn (fst sg) evs)))) (segments m d 0 p))) by lra.
        rewrite <- Rsum_scal_l. apply Rsum_map_ext. intros sg _. lra.
    - intros sg _ Hf. apply Nat.ltb_ge in Hf. unfold f. rewrite skipn_all2 by exact Hf. rewrite firstn_nil.
      cbn [seq_prob]. rewrite ln_1. lra. }
  assert (Hns : INR (length sgs) <= INR (1 + k * d)).
  { apply le_INR. unfold sgs. pose proof (filter_length_le' (fun sg : nat * nat => (fst sg <? length evs)%nat) (segments m d 0 p)). unfold k. lia. }
  apply le_INR in Hcost. assert (0 < ln 2) by (rewrite <- ln_1; apply ln_increasing; lra).
  fold k in Hl, Hcost. change (length evs) with n in Hl. cbv beta in Hreg. unfold f in Hsum at 1. rewrite Hpp in Hsum. 
  pose proof (pos_INR (length sgs)). nra.
Qed.
