(** C105: FMN when floats round. Every sum, difference, division, exponential and logarithm that FMN, its
    averages and its base models compute may be off by a relative error u. *)
From Verif Require Import Spec.FloatsFMNSpec Proofs.FMNFacts Proofs.PTWMixture Proofs.PomdpCTW Proofs.FloatsChop Proofs.FloatsFMNFacts Proofs.FloatsFMNTop Proofs.FloatsFMNKT.
From Verif Require Import Spec.FloatsCodeSpec Spec.FloatsNestSpec Spec.ACSpec Spec.KTSpec Spec.SourceSpec Spec.PTWSpec Proofs.KTRedundancy Proofs.FloatsCodeTop Proofs.FloatsFMNDrift.
Open Scope R_scope.

(** Without rounding this is the FMN of the other theorems. *)
Theorem C105_exact : forall S T (M : model S) (C : store_class (S := S) T) m, FFMN_model exact M C m = FMN_model M C m.
Proof. exact @exact_fmn. Qed.
Print Assumptions C105_exact.

(** Over any base model which, computed with rounding, follows an exact model: FMN completes, and what it
    returns is at least as good as re-using retained models on the segments of any partition of time, but for
    the usual cost and a slack which is proportional to the errors. *)
Theorem C105_any_base : forall F u big max, accurate F u big max -> 0 <= u <= / 64 ->
  forall S1 S2 T (M1 : model S1) (M2 : model S2) (C : store_class (S := S1) T) TI f1 f2 A okh Inv eps L close m d seq h,
  let n := length seq in
  store_law C TI -> steady M1 M2 f1 f2 A okh (2 * n) eps L close -> steps M2 A okh (eq 1) Inv ->
  (forall i x y, close i x y -> Inv y) ->
  (forall xs t, st_adds C (st_empty C) xs = Ok t -> (length xs <= S n)%nat -> (length (st_iter C t) <= d)%nat) ->
  seq <> [] -> 0 <= L -> 0 <= eps -> fmn_room u big max n d L eps ->
  Forall (ok_event A okh (eq 1)) (events_from h seq 1) ->
  fcompetes F M1 C m f1 h seq (INR n * (23 * fmn_loss u n d L eps + eps)).
Proof. exact @fmn_any. Qed.
Print Assumptions C105_any_base.

(** KTBinary with either store. *)
Theorem C105_kt : forall F u big max, accurate F u big max -> 0 <= u <= / 64 ->
  forall seq h m, incl seq [0; 1]%Z -> incl h [0; 1]%Z -> seq <> [] ->
  let n := length seq in let L := kt_most (2 * n) in let d := (Nat.log2 (n + 1) + 1)%nat in let eps := u * (L + 4) in
  (4 * n + 2 <= max)%nat -> fmn_room u big max n d L eps ->
  fcompetes F (FKTB_model F) (LogStore_class ktb) m ktb_init h seq (INR n * (23 * fmn_loss u n d L eps + eps)).
Proof. exact fmn_kt_log. Qed.
Print Assumptions C105_kt.

Theorem C105_kt_uniform : forall F u big max, accurate F u big max -> 0 <= u <= / 64 ->
  forall seq h m, incl seq [0; 1]%Z -> incl h [0; 1]%Z -> seq <> [] ->
  let n := length seq in let L := kt_most (2 * n) in let d := (Nat.log2 (n + 1) + 2)%nat in let eps := u * (L + 4) in
  (4 * n + 2 <= max)%nat -> fmn_room u big max n d L eps ->
  fcompetes F (FKTB_model F) (LogStoreUniform_class ktb) m ktb_init h seq (INR n * (23 * fmn_loss u n d L eps + eps)).
Proof. exact fmn_kt_uniform. Qed.
Print Assumptions C105_kt_uniform.

(** CTW_KT of any depth. *)
Theorem C105_ctw : forall F u big max, accurate F u big max -> 0 <= u <= / 64 ->
  forall seq h m, incl seq [0; 1]%Z -> incl h [0; 1]%Z -> seq <> [] ->
  let n := length seq in let L := kt_most (2 * n) in
  forall D, (0 < D)%nat -> let d := (Nat.log2 (n + 1) + 1)%nat in
  let eps := INR (2 * n) * u * ((2 * INR D + 3) * allowance (2 * n)) in
  (4 * n + 2 <= max)%nat -> allowance (2 * n) <= big -> INR (2 * n) * u * ((INR D + 1) * allowance (2 * n)) <= 1 ->
  fmn_room u big max n d L eps ->
  fcompetes F (FCTWKT_model F) (LogStore_class ctwkt) m (ctwkt_init (Z.of_nat D)) h seq (INR n * (23 * fmn_loss u n d L eps + eps)).
Proof. exact fmn_ctw_log. Qed.
Print Assumptions C105_ctw.

(** With 52 digits, seven bits and depth 8 the hypotheses hold, and the slack is below a millionth. *)
Example C105_ex : let u := powerRZ 2 (-52) in let n := 7%nat in let d := (Nat.log2 (n + 1) + 1)%nat in let L := kt_most (2 * n) in
  let eps1 := u * (L + 4) in let eps2 := INR (2 * n) * u * ((2 * INR 8 + 3) * allowance (2 * n)) in
  accurate (chopped 52) u 2000 (Z.to_nat (2 ^ 52)) /\ 0 <= u <= / 64 /\ (4 * n + 2 <= Z.to_nat (2 ^ 52))%nat /\
  fmn_room u 2000 (Z.to_nat (2 ^ 52)) n d L eps1 /\
  allowance (2 * n) <= 2000 /\ INR (2 * n) * u * ((INR 8 + 1) * allowance (2 * n)) <= 1 /\
  fmn_room u 2000 (Z.to_nat (2 ^ 52)) n d L eps2 /\
  INR n * (23 * fmn_loss u n d L eps1 + eps1) <= / 1000000 /\ INR n * (23 * fmn_loss u n d L eps2 + eps2) <= / 1000000.
Proof. exact ffmn_example. Qed.

(** Both base models are followed in the sense required. *)
Example C105_steady_ex : forall F u big max n, accurate F u big max -> 0 <= u <= / 64 -> (0 < n)%nat -> (2 * n + 2 <= max)%nat ->
  steady (FKTB_model F) KTB_model ktb_init ktb_init [0; 1]%Z bit_hist n (u * (ln (2 * INR n + 2) + 4)) (ln (2 * INR n + 2)) ktb_same.
Proof. exact (fun F u big max n HF Hu => ktb_steady F u big max HF Hu n). Qed.

(** FMN over KTBinary with the default store, against a coin whose bias changes: C64 when floats round. *)
Theorem C105_drift : forall F u big max, accurate F u big max -> 0 <= u <= / 64 ->
  forall theta cps m seq h, (forall t, 0 <= theta t <= 1) -> changes_at theta cps ->
  Forall (fun c => c mod 2 ^ m = 0)%nat cps -> incl seq [0; 1]%Z -> incl h [0; 1]%Z -> seq <> [] -> 0 < drift_prob theta 0 seq ->
  let n := length seq in let d := levels m n in let k := length cps in let C := LogStore_class ktb in
  let D := (Nat.log2 (n + 1) + 1)%nat in let L := kt_most (2 * n) in let eps := u * (L + 4) in
  (4 * n + 2 <= max)%nat -> fmn_room u big max n D L eps ->
  exists s0 s r, ffmn_init F C m ktb_init = Ok s0 /\ fp_update_seq F (FFMN_model F (FKTB_model F) C m) s0 seq h 1 = Ok (s, h, r) /\
    - r <= - ln (drift_prob theta 0 seq) + INR (1 + k * d) * (learn n + ln (INR D))
           + INR (1 + 2 * k * d) * ln 2 + INR (pred d) * ln (3 / 2) + INR n * (23 * fmn_loss u n D L eps + 2 * eps).
Proof. exact ffmn_drift. Qed.
Print Assumptions C105_drift.

(** A coin that changes once in 100 tosses. *)
Example C105_drift_ex : let u := powerRZ 2 (-52) in let big := 1000000 in let max := Z.to_nat (2 ^ 52) in
  let bits := alternating 50 in let n := length bits in let D := (Nat.log2 (n + 1) + 1)%nat in
  let theta := fun t => if (t <? 64)%nat then / 4 else 3 / 4 in
  let L := kt_most (2 * n) in let eps := u * (L + 4) in let v := fmn_loss u n D L eps in
  accurate (chopped 52) u big max /\ 0 <= u <= / 64 /\ 1 <= big /\ multiplies (fun x y => chop 52 (x * y)) u (2 ^ 32) /\
  (forall t, 0 <= theta t <= 1) /\ changes_at theta [64%nat] /\ Forall (fun c => c mod 2 ^ 5 = 0)%nat [64%nat] /\
  Forall is_bit bits /\ incl bits [0; 1]%Z /\ bits <> [] /\ 0 < drift_prob theta 0 bits /\ n = 100%nat /\ D = 7%nat /\ levels 5 n = 2%nat /\
  (4 * n + 2 <= max)%nat /\ fmn_room u big max n D L eps /\
  32 * (2 * INR n + 1) * u <= 1 /\ 8 * (2 * INR n + 1) * (45 * (INR n * v)) <= 1 /\
  INR n * (25 * v + 2 * eps + 32 * (2 * INR n + 1) * u) <= / 500.
Proof. exact fmn_drift_example. Qed.
