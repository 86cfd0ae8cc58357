(** C64: PTW and FMN over the binary KT estimator track a coin whose bias changes. *)
From Coq Require Import Lra.
From Verif Require Import Model.KT Model.PTW Model.FMN Spec.SourceSpec Spec.PTWSpec Spec.FMNSpec.
From Verif Require Import Proofs.SourceFacts Proofs.SourceProps.
Open Scope R_scope.

(** [theta t] is the bias at time [t]; it changes only at the times [cps], which are multiples of the
    smallest segment length 2^m. With k changes among n bits and d = log2 (n / 2^m) rounded up, the log
    loss exceeds that of the coin itself by at most (1 + k d) times the price of learning one bias
    (ln n / 2 + ln 2), and O(k d) bits. *)
Theorem C64_ptw_drift : forall (theta : nat -> R) cps m evs,
  (forall t, 0 <= theta t <= 1) -> changes_at theta cps ->
  Forall (fun c => c mod 2 ^ m = 0)%nat cps -> unit_bits evs -> 0 < drift_prob theta 0 (map ev_sym evs) ->
  let d := levels m (length evs) in let k := length cps in
  exists s l, run (PTW_model KTB_model m ktb_init) (ptw_init m ktb_init) evs = Ok (s, l) /\
    - l <= - ln (drift_prob theta 0 (map ev_sym evs)) + INR (1 + k * d) * learn (length evs)
           + INR (1 + 2 * k * d) * ln 2 + INR (pred d) * ln (3 / 2).
Proof. exact ptw_drift. Qed.
Print Assumptions C64_ptw_drift.

(** The version that knows the length in advance. *)
Theorem C64_ptwf_drift : forall (theta : nat -> R) cps m len evs,
  (forall t, 0 <= theta t <= 1) -> changes_at theta cps ->
  Forall (fun c => c mod 2 ^ m = 0)%nat cps -> unit_bits evs -> 0 < drift_prob theta 0 (map ev_sym evs) ->
  (length evs <= len)%nat ->
  let d := (fixed_height_of len - m)%nat in let k := length cps in
  exists s l, run (PTWF_model KTB_model m ktb_init) (ptwf_init m len ktb_init) evs = Ok (s, l) /\
    - l <= - ln (drift_prob theta 0 (map ev_sym evs)) + INR (1 + k * d) * learn (length evs)
           + INR (1 + 2 * k * d) * ln 2.
Proof. exact ptwf_drift. Qed.
Print Assumptions C64_ptwf_drift.

(** FMN pays in addition, per segment, the logarithm of the number of models it keeps. *)
Theorem C64_fmn_drift : forall (theta : nat -> R) cps m evs,
  (forall t, 0 <= theta t <= 1) -> changes_at theta cps ->
  Forall (fun c => c mod 2 ^ m = 0)%nat cps -> unit_bits evs -> 0 < drift_prob theta 0 (map ev_sym evs) ->
  let n := length evs in let d := levels m n in let k := length cps in
  exists s0 s l, fmn_init (LogStore_class ktb) m ktb_init = Ok s0 /\
    run (FMN_model KTB_model (LogStore_class ktb) m) s0 evs = Ok (s, l) /\
    - l <= - ln (drift_prob theta 0 (map ev_sym evs))
           + INR (1 + k * d) * (learn n + ln (INR (Nat.log2 (1 + n / 2 ^ m) + 1)))
           + INR (1 + 2 * k * d) * ln 2 + INR (pred d) * ln (3 / 2).
Proof. exact fmn_drift. Qed.
Print Assumptions C64_fmn_drift.

(** The source is a probability distribution over the bit sequences of each length. *)
Theorem C64_source : forall theta n t, Rsum (map (drift_prob theta t) (tuples n [0; 1]%Z)) = 1.
Proof. exact drift_total. Qed.
Print Assumptions C64_source.

(** A coin that shows 1 with probability 1/4 for four tosses and 3/4 afterwards. *)
Definition C64_theta (t : nat) : R := if (t <? 4)%nat then / 4 else 3 / 4.
Definition C64_bits : list event := unit_events [0; 0; 1; 0; 1; 1]%Z.
Example C64_ex : (forall t, 0 <= C64_theta t <= 1) /\ changes_at C64_theta [4%nat] /\
  Forall (fun c => c mod 2 ^ 1 = 0)%nat [4%nat] /\ unit_bits C64_bits /\
  drift_prob C64_theta 0 (map ev_sym C64_bits) = 243 / 4096 /\ levels 1 (length C64_bits) = 2%nat.
Proof.
  split.
  { intros t. unfold C64_theta. destruct (t <? 4)%nat; lra. }
  split.
  { intros t H. unfold C64_theta in H. destruct (Nat.ltb_spec (S t) 4), (Nat.ltb_spec t 4); try (exfalso; apply H; reflexivity); [lia|].
    left. lia. }
  split; [repeat constructor|]. split.
  { unfold unit_bits, C64_bits, unit_events. cbn [map]. repeat (apply Forall_cons; [split; [cbn; auto|reflexivity]|]). apply Forall_nil. }
  split; [|reflexivity].
  cbn. unfold coin, C64_theta. cbn. lra.
Qed.
