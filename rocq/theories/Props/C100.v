(** C100: the size of the code against the log loss of the model itself, whatever the working interval does. *)
From Coq Require Import Lra.
From Verif Require Import Model.CtwPTW Spec.ACSpec Spec.ZipSpec Spec.KTSpec Proofs.ACLength Proofs.ACKT Proofs.ACTop Proofs.ACRedundancy Proofs.ACWaste.
From Verif Require Import Model.PTW Model.FMN Spec.SourceSpec Spec.PTWSpec Spec.FMNSpec Proofs.ACTrack.
Open Scope R_scope.

(** For every k with k < N <= k(k+1): the code, without the two bits of flush, is at most (N-k)/(N-2k) times
    the loss plus 2^-k/ln 2 bits for each symbol and k bits. [N] is num_bits. *)
Theorem C100_length : forall S (M : model S) (Inv : S -> Prop) (N k fuel : nat), (2 <= N)%nat -> (N < fuel)%nat ->
  at_most_one M Inv -> (1 <= k)%nat -> (k < N)%nat -> (N <= k * (k + 1))%nat ->
  forall (m : S) (bits code : list Z), Inv m -> Forall is_bit bits -> compress (coder_of M) N fuel m bits = Ok code ->
  0 < seq_prob M m (unit_events bits) /\
  (INR N - 2 * INR k) * (INR (length code) - 2) <=
  (INR N - INR k) * (- ln (seq_prob M m (unit_events bits)) / ln 2 + INR (length bits) / (2 ^ k * ln 2) + INR k).
Proof. exact @code_redundancy. Qed.
Print Assumptions C100_length.

(** z.py, 32 bits and k = 6: 20 : 26. *)
Theorem C100_zip : forall (name : pystr) (data code out : list Z), coded name data code -> holds code out ->
  exists S (M : model S) m, used name S M m /\
    let loss := - ln (seq_prob M m (unit_events (bits_of_file data))) / ln 2 in
    20 * (INR (8 * length out) - 9) <= 26 * (loss + INR (8 * length data) / (64 * ln 2) + 6).
Proof. exact zip_redundancy. Qed.
Print Assumptions C100_zip.

(** With KT, against every coin [theta] that might have produced the bits of the file. *)
Theorem C100_zip_kt : forall (data code out : list Z) (theta : R), coded (lit "KT") data code -> holds code out -> data <> [] ->
  0 <= theta <= 1 -> 0 < coin_prob theta (bits_of_file data) ->
  20 * (INR (8 * length out) - 9) <=
  26 * (- ln (coin_prob theta (bits_of_file data)) / ln 2 + ln (INR (8 * length data)) / (2 * ln 2) +
        INR (8 * length data) / (64 * ln 2) + 7).
Proof. exact zip_kt_redundancy. Qed.
Print Assumptions C100_zip_kt.

(** With PTW and FMN, against coins whose bias changes at [cps] (for FMN at multiples of 1024 bits). *)
Theorem C100_zip_ptw : forall (data code out : list Z) (theta : nat -> R) (cps : list nat), coded (lit "PTW") data code -> holds code out ->
  (forall t, 0 <= theta t <= 1) -> changes_at theta cps -> 0 < drift_prob theta 0 (bits_of_file data) ->
  let n := (8 * length data)%nat in let d := levels 0 n in let k := length cps in
  20 * (INR (8 * length out) - 9) <=
  26 * ((- ln (drift_prob theta 0 (bits_of_file data)) + (INR (1 + k * d) * learn n + INR (1 + 2 * k * d) * ln 2 + INR (pred d) * ln (3 / 2))) / ln 2
        + INR n / (64 * ln 2) + 6).
Proof. exact zip_ptw_drift. Qed.
Print Assumptions C100_zip_ptw.

Theorem C100_zip_fmn : forall (data code out : list Z) (theta : nat -> R) (cps : list nat), coded (lit "FMN") data code -> holds code out ->
  (forall t, 0 <= theta t <= 1) -> changes_at theta cps -> Forall (fun c => c mod 2 ^ 10 = 0)%nat cps ->
  0 < drift_prob theta 0 (bits_of_file data) ->
  let n := (8 * length data)%nat in let d := levels 10 n in let k := length cps in
  20 * (INR (8 * length out) - 9) <=
  26 * ((- ln (drift_prob theta 0 (bits_of_file data)) +
         (INR (1 + k * d) * (learn n + ln (INR (Nat.log2 (1 + n / 2 ^ 10) + 1))) + INR (1 + 2 * k * d) * ln 2 + INR (pred d) * ln (3 / 2))) / ln 2
        + INR n / (64 * ln 2) + 6).
Proof. exact zip_fmn_drift. Qed.
Print Assumptions C100_zip_fmn.

(** A coin that shows 1 with probability 1/4 for 1024 tosses and 3/4 afterwards. *)
Example C100_zip_ex : let theta := fun t => if (t <? 2 ^ 10)%nat then / 4 else 3 / 4 in let cps := [(2 ^ 10)%nat] in
  (forall t, 0 <= theta t <= 1) /\ changes_at theta cps /\ Forall (fun c => c mod 2 ^ 10 = 0)%nat cps /\
  (forall data, 0 < drift_prob theta 0 (bits_of_file data)) /\ levels 10 (8 * 512) = 2%nat.
Proof. exact drift_ex. Qed.

(** The code is not always within a constant of the loss: the interval is not widened while it lies
    around the midpoint (ac.py:77 makes _3_4 one half), so that most of a bit may be lost again and again. *)
Theorem C100_constant_refuted : exists S (M : model S) (Inv : S -> Prop) (m : S), lawful M [0; 1]%Z (fun _ => True) (fun _ => True) Inv /\ Inv m /\
  forall B : R, exists bits code, Forall is_bit bits /\ compress (coder_of M) 32 40 m bits = Ok code /\
    B + - ln (seq_prob M m (unit_events bits)) / ln 2 < INR (length code).
Proof. exact code_not_constant. Qed.
Print Assumptions C100_constant_refuted.

Example C100_ex : exists code,
  at_most_one (q_model QKT_class) (CtwKTFacts.qkt_inv [0; 1]%Z) /\
  CtwKTFacts.qkt_inv [0; 1]%Z (qkt_init [0; 1]%Z) /\ Forall is_bit [1; 0; 1; 1; 0; 0]%Z /\
  compress (coder_of (q_model QKT_class)) 32 40 (qkt_init [0; 1]%Z) [1; 0; 1; 1; 0; 0]%Z = Ok code /\
  (1 <= 6)%nat /\ (6 < 32)%nat /\ (32 <= 6 * (6 + 1))%nat /\ 0 < coin_prob (/ 3) (bits_of_file [72; 101]%Z).
Proof.
  assert (Hb : Forall is_bit [1; 0; 1; 1; 0; 0]%Z)
    by (repeat apply Forall_cons; try apply Forall_nil; (now left) || now right).
  eexists. split; [|split; [apply qkt_init_inv|]].
  - apply (lawful_at_most_one _ _ (fun _ => True) (fun w => 0 <= w)); [apply qkt_lawful|exact I|lra].
  - split; [exact Hb|]. change (coder_of (q_model QKT_class)) with QKT_coder. rewrite (kt_compress 32 40 _ Hb).
    split; [vm_compute; reflexivity|]. split; [lia|]. split; [lia|]. split; [cbn; lia|].
    unfold coin_prob. apply Rmult_lt_0_compat; apply pow_lt; lra.
Qed.
