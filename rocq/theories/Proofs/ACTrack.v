(** Files of z.py with PTW and FMN against coins whose bias changes. *)
From Coq Require Import Lra.
From Verif Require Import Model.PTW Model.FMN Spec.ACSpec Spec.ZipSpec Spec.KTSpec Spec.SourceSpec Spec.PTWSpec Spec.FMNSpec.
From Verif Require Import Proofs.PyFacts Proofs.RealFacts Proofs.ProbFacts Proofs.ZipFacts Proofs.SourceFacts Proofs.SourceProps Proofs.ACOverhead Proofs.ACRedundancy Proofs.ACWaste.
Open Scope R_scope.

Lemma file_events data : let evs := unit_events (bits_of_file data) in
  unit_bits evs /\ map ev_sym evs = bits_of_file data /\ length evs = (8 * length data)%nat.
Proof.
  cbv zeta. split; [|split].
  - pose proof (file_bits_bits data) as H. unfold unit_bits, unit_events. rewrite Forall_forall in *. intros e He. apply in_map_iff in He as (x & <- & Hx).
    specialize (H x Hx). cbn. destruct H as [-> | ->]; cbn; tauto.
  - unfold unit_events. rewrite map_map. cbn. apply map_id.
  - unfold unit_events. rewrite map_length. apply file_length.
Qed.

Lemma zip_ptw_drift data code out theta cps : coded (lit "PTW") data code -> holds code out ->
  (forall t, 0 <= theta t <= 1) -> changes_at theta cps -> 0 < drift_prob theta 0 (bits_of_file data) ->
  let n := (8 * length data)%nat in let d := levels 0 n in let k := length cps in
  20 * (INR (8 * length out) - 9) <=
  26 * ((- ln (drift_prob theta 0 (bits_of_file data)) + (INR (1 + k * d) * learn n + INR (1 + 2 * k * d) * ln 2 + INR (pred d) * ln (3 / 2))) / ln 2
        + INR n / (64 * ln 2) + 6).
Proof.
  intros HC Hh Ht Hch Hp n d k. destruct (zip_redundancy _ _ _ _ HC Hh) as (S & M & m & HU & HL). cbv zeta in HL.
  destruct (file_events data) as (Hu & Hs & Hl).
  assert (Hc0 : Forall (fun c => c mod 2 ^ 0 = 0)%nat cps) by (apply Forall_forall; intros c _; apply Nat.mod_1_r).
  destruct (ptw_drift theta cps 0 (unit_events (bits_of_file data)) Ht Hch Hc0 Hu ltac:(rewrite Hs; exact Hp)) as (s & l & Er & HB).
  rewrite Hs, Hl in HB. fold n d k in HB.
  assert (EQ : seq_prob M m (unit_events (bits_of_file data)) = exp l).
  { transitivity (seq_prob (PTW_model KTB_model 0 ktb_init) (ptw_init 0 ktb_init) (unit_events (bits_of_file data))).
    - clear -HU. remember (lit "PTW") as nm eqn:En. destruct HU; [discriminate|reflexivity|discriminate].
    - now apply (seq_prob_run _ _ _ _ _ Er). }
  rewrite EQ, ln_exp in HL. fold n in HL.
  assert (X : - l / ln 2 <= (- ln (drift_prob theta 0 (bits_of_file data)) + (INR (1 + k * d) * learn n + INR (1 + 2 * k * d) * ln 2 + INR (pred d) * ln (3 / 2))) / ln 2).
  { pose proof ln2_pos. apply Rmult_le_compat_r; [left; apply Rinv_0_lt_compat; lra|lra]. }
  lra.
Qed.

Lemma zip_fmn_drift data code out theta cps : coded (lit "FMN") data code -> holds code out ->
  (forall t, 0 <= theta t <= 1) -> changes_at theta cps -> Forall (fun c => c mod 2 ^ 10 = 0)%nat cps ->
  0 < drift_prob theta 0 (bits_of_file data) ->
  let n := (8 * length data)%nat in let d := levels 10 n in let k := length cps in
  20 * (INR (8 * length out) - 9) <=
  26 * ((- ln (drift_prob theta 0 (bits_of_file data)) +
         (INR (1 + k * d) * (learn n + ln (INR (Nat.log2 (1 + n / 2 ^ 10) + 1))) + INR (1 + 2 * k * d) * ln 2 + INR (pred d) * ln (3 / 2))) / ln 2
        + INR n / (64 * ln 2) + 6).
Proof.
  intros HC Hh Ht Hch Hc0 Hp n d k. destruct (zip_redundancy _ _ _ _ HC Hh) as (S & M & m & HU & HL). cbv zeta in HL.
  destruct (file_events data) as (Hu & Hs & Hl).
  destruct (fmn_drift theta cps 10 (unit_events (bits_of_file data)) Ht Hch Hc0 Hu ltac:(rewrite Hs; exact Hp)) as (s0 & s & l & Ei & Er & HB).
  rewrite Hs, Hl in HB. fold n d k in HB.
  assert (EQ : seq_prob M m (unit_events (bits_of_file data)) = exp l).
  { transitivity (seq_prob (FMN_model KTB_model (LogStore_class ktb) 10) s0 (unit_events (bits_of_file data))).
    - clear -HU Ei. remember (lit "FMN") as nm eqn:En. destruct HU as [| |t E]; [discriminate|discriminate|]. rewrite Ei in E. now injection E as <-.
    - now apply (seq_prob_run _ _ _ _ _ Er). }
  rewrite EQ, ln_exp in HL. fold n in HL.
  assert (X : - l / ln 2 <= (- ln (drift_prob theta 0 (bits_of_file data)) +
         (INR (1 + k * d) * (learn n + ln (INR (Nat.log2 (1 + n / 2 ^ 10) + 1))) + INR (1 + 2 * k * d) * ln 2 + INR (pred d) * ln (3 / 2))) / ln 2).
  { pose proof ln2_pos. apply Rmult_le_compat_r; [left; apply Rinv_0_lt_compat; lra|lra]. }
  lra.
Qed.

Lemma drift_ex : let theta := fun t => if (t <? 2 ^ 10)%nat then / 4 else 3 / 4 in let cps := [(2 ^ 10)%nat] in
  (forall t, 0 <= theta t <= 1) /\ changes_at theta cps /\ Forall (fun c => c mod 2 ^ 10 = 0)%nat cps /\
  (forall data, 0 < drift_prob theta 0 (bits_of_file data)) /\ levels 10 (8 * 512) = 2%nat.
Proof.
  intros theta cps. split.
  { intros t. unfold theta. destruct (t <? _)%nat; lra. }
  split.
  { intros t H. unfold theta in H. destruct (Nat.ltb_spec (S t) (2 ^ 10)), (Nat.ltb_spec t (2 ^ 10)); try (exfalso; apply H; reflexivity); [lia|].
    left. lia. }
  split; [repeat constructor|]. split; [|reflexivity].
  intros data. generalize (bits_of_file data) as xs. generalize 0%nat as t. intros t xs. revert t.
  induction xs as [|x xs IH]; intros t; cbn [drift_prob]; [lra|]. apply Rmult_lt_0_compat; [|apply IH].
  unfold coin, theta. destruct (x =? 1)%Z, (t <? _)%nat; lra.
Qed.
