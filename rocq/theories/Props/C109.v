(** C109: the size of the arithmetic code when floats round. *)
From Verif Require Import Spec.FloatsCodeSpec Spec.FloatsNestSpec Spec.ACSpec Spec.KTSpec Spec.SourceSpec Spec.PTWSpec Proofs.ACOverhead Proofs.KTFacts Spec.FMNSpec Proofs.FMNFacts Proofs.FMNProps Proofs.PTWMixture Proofs.FloatsFMNFacts Proofs.FloatsFMNTop Proofs.FloatsFMNKT Proofs.FloatsCode Proofs.FloatsCodeTop Proofs.FloatsFMNCode Proofs.FloatsFMNDrift.
Open Scope R_scope.

(** Any model whose probabilities stay away from 0 and 1: the coder completes and its code is bounded by the loss of the model. *)
Theorem C109_coder : forall F mul u big max, accurate F u big max -> 0 <= u -> 1 <= big ->
  forall S (M : model S) N k fuel, multiplies mul u (2 ^ N) -> (2 <= N)%nat -> (N < fuel)%nat -> (1 <= k)%nat -> (k < N)%nat -> (N <= k * (k + 1))%nat ->
  forall d, 4 * u < d -> forall m bits, undecided M d m bits ->
  exists code, compress (fp_coder_of F mul M) N fuel m bits = Ok code /\ 0 < seq_prob M m (unit_events bits) /\
    (INR N - 2 * INR k) * (INR (length code) - 2) <=
    (INR N - INR k) * ((- ln (seq_prob M m (unit_events bits)) + INR (length bits) * (/ 2 ^ k + split_loss u d)) / ln 2 + INR k).
Proof. exact @fp_redundancy. Qed.
Print Assumptions C109_coder.

(** A model which follows an exact one: the loss is that of the exact model. *)
Theorem C109_follows : forall F mul u big max, accurate F u big max -> 0 <= u <= / 64 -> 1 <= big ->
  forall S1 S2 (M1 : model S1) (M2 : model S2) f1 f2 okh eps L close Inv N k fuel bits,
  let n := length bits in let d := exp (- L) - 2 * eps in
  multiplies mul u (2 ^ N) -> (2 <= N)%nat -> (N < fuel)%nat -> (1 <= k)%nat -> (k < N)%nat -> (N <= k * (k + 1))%nat ->
  steady M1 M2 f1 f2 [0; 1]%Z okh n eps L close -> okh [] -> coherent M2 Inv -> Inv f2 -> 0 <= eps <= / 2 -> 4 * u < d ->
  Forall is_bit bits ->
  exists code, compress (fp_coder_of F mul M1) N fuel f1 bits = Ok code /\ 0 < seq_prob M2 f2 (unit_events bits) /\
    (INR N - 2 * INR k) * (INR (length code) - 2) <=
    (INR N - INR k) * ((- ln (seq_prob M2 f2 (unit_events bits)) + INR n * (/ 2 ^ k + split_loss u d + eps)) / ln 2 + INR k).
Proof. exact @follows_code. Qed.
Print Assumptions C109_follows.

(** KT and the 32 bits of z.py against any coin. *)
Theorem C109_kt : forall F mul u big max, accurate F u big max -> 0 <= u <= / 64 -> 1 <= big -> multiplies mul u (2 ^ 32) ->
  forall tiny bits theta fuel, divides F u tiny -> Forall is_bit bits -> bits <> [] -> (32 < fuel)%nat ->
  0 <= theta <= 1 -> 0 < coin_prob theta bits -> let n := length bits in
  32 * (INR n + 2) * u <= 1 -> tiny <= / (4 * INR n) -> 2 * INR n + 4 <= big -> 8 * INR n * kt_off u 2 n <= 1 ->
  exists f1 code, fkt_init F [0; 1]%Z = Ok f1 /\ compress (fp_coder_of F mul (FKT_model F)) 32 fuel f1 bits = Ok code /\
    20 * (INR (length code) - 2) <=
    26 * (- ln (coin_prob theta bits) / ln 2 + ln (INR n) / (2 * ln 2) + INR n * (/ 64 + kt_off u 2 n + 32 * INR n * u) / ln 2 + 7).
Proof. exact kt_code. Qed.
Print Assumptions C109_kt.

(** PTW over KTBinary against coins that change at the times [cps]. *)
Theorem C109_ptw : forall F mul u big max, accurate F u big max -> 0 <= u <= / 64 -> 1 <= big -> multiplies mul u (2 ^ 32) ->
  forall bits theta cps fuel, Forall is_bit bits -> bits <> [] -> (32 < fuel)%nat ->
  (forall t, 0 <= theta t <= 1) -> changes_at theta cps -> 0 < drift_prob theta 0 bits ->
  let n := length bits in let d := levels 0 n in let k := length cps in
  let loss := ptw_loss u n (kt_most n) 0 (u * (kt_most n + 4)) in let eps := 45 * (INR n * loss) in
  (2 * n + 2 <= max)%nat -> 2 * ptw_size n (kt_most n) 0 + 6 <= big -> 25 * (INR n * loss) <= 1 ->
  32 * (INR n + 1) * u <= 1 -> 8 * (INR n + 1) * eps <= 1 ->
  exists code, compress (fp_coder_of F mul (FPTW_model F (FKTB_model F) 0 ktb_init)) 32 fuel (ptw_init 0 ktb_init) bits = Ok code /\
    20 * (INR (length code) - 2) <=
    26 * ((- ln (drift_prob theta 0 bits) + (INR (1 + k * d) * learn n + INR (1 + 2 * k * d) * ln 2 + INR (pred d) * ln (3 / 2))
           + INR n * (/ 64 + eps + 32 * (INR n + 1) * u)) / ln 2 + 6).
Proof. exact ptw_code. Qed.
Print Assumptions C109_ptw.

(** 100 bits with 52 digits; the losses from rounding are small. *)
Example C109_ex : let u := powerRZ 2 (-52) in let big := 200000 in let tiny := / 1000 in let max := Z.to_nat (2 ^ 52) in
  let bits := alternating 50 in let n := length bits in let theta := fun t => if (t <? 64)%nat then / 4 else 3 / 4 in
  let loss := ptw_loss u n (kt_most n) 0 (u * (kt_most n + 4)) in
  accurate (chopped 52) u big max /\ 0 <= u <= / 64 /\ 1 <= big /\ multiplies (fun x y => chop 52 (x * y)) u (2 ^ 32) /\
  divides (chopped 52) u tiny /\ Forall is_bit bits /\ bits <> [] /\ n = 100%nat /\
  0 < coin_prob (/ 2) bits /\ 32 * (INR n + 2) * u <= 1 /\ tiny <= / (4 * INR n) /\ 2 * INR n + 4 <= big /\
  8 * INR n * kt_off u 2 n <= 1 /\ INR n * (kt_off u 2 n + 32 * INR n * u) <= / 1000000 /\
  (forall t, 0 <= theta t <= 1) /\ changes_at theta [64%nat] /\ 0 < drift_prob theta 0 bits /\
  (2 * n + 2 <= max)%nat /\ 2 * ptw_size n (kt_most n) 0 + 6 <= big /\ 25 * (INR n * loss) <= 1 /\ 32 * (INR n + 1) * u <= 1 /\
  8 * (INR n + 1) * (45 * (INR n * loss)) <= 1 /\ INR n * (45 * (INR n * loss) + 32 * (INR n + 1) * u) <= / 1000.
Proof. exact code_example. Qed.

(** KT meets what is asked of models in [C109_coder] and [C109_follows]. *)
Example C109_follows_ex : let u := powerRZ 2 (-52) in let F := chopped 52 in let bits := alternating 50 in let n := length bits in
  let d := exp (- kt_worst 2 n) - 2 * kt_off u 2 n in
  exists f1 close, fkt_init F [0; 1]%Z = Ok f1 /\ undecided (FKT_model F) (/ 400) f1 bits /\ 4 * u < / 400 <= d /\
    steady (FKT_model F) KT_model f1 (kt_init [0; 1]%Z) [0; 1]%Z any_hist n (kt_off u 2 n) (kt_worst 2 n) close /\ any_hist [] /\
    coherent KT_model (kt_inv [0; 1]%Z) /\ kt_inv [0; 1]%Z (kt_init [0; 1]%Z) /\ 0 <= kt_off u 2 n <= / 2.
Proof. exact follows_example. Qed.

(** FMN over KTBinary, with any store that keeps at most [D] models: the code is bounded by what update_seq returns, to which C105 applies. *)
Theorem C109_fmn : forall F mul u big max, accurate F u big max -> 0 <= u <= / 64 -> 1 <= big -> multiplies mul u (2 ^ 32) ->
  forall T (C : store_class (S := ktb) T) TI D m bits fuel, let n := length bits in
  store_law C TI ->
  (forall xs t, st_adds C (st_empty C) xs = Ok t -> (length xs <= S n)%nat -> (length (st_iter C t) <= D)%nat) ->
  Forall is_bit bits -> bits <> [] -> (32 < fuel)%nat ->
  let L := kt_most (2 * n) in let eps := u * (L + 4) in let loss := fmn_loss u n D L eps in
  (4 * n + 2 <= max)%nat -> fmn_room u big max n D L eps ->
  32 * (2 * INR n + 1) * u <= 1 -> 8 * (2 * INR n + 1) * (45 * (INR n * loss)) <= 1 ->
  exists s0 s r code, ffmn_init F C m ktb_init = Ok s0 /\ fp_update_seq F (FFMN_model F (FKTB_model F) C m) s0 bits [] 1 = Ok (s, [], r) /\
    compress (fp_coder_of F mul (FFMN_model F (FKTB_model F) C m)) 32 fuel s0 bits = Ok code /\
    20 * (INR (length code) - 2) <= 26 * ((- r + INR n * (/ 64 + 2 * loss + 32 * (2 * INR n + 1) * u)) / ln 2 + 6).
Proof. exact @fmn_code. Qed.
Print Assumptions C109_fmn.

(** With the default store: against re-using models retained, on the segments of any partition of time. *)
Theorem C109_fmn_competes : forall F mul u big max, accurate F u big max -> 0 <= u <= / 64 -> 1 <= big -> multiplies mul u (2 ^ 32) ->
  forall m bits fuel, let n := length bits in let evs := events_from [] bits 1 in let D := (Nat.log2 (n + 1) + 1)%nat in
  let C := LogStore_class ktb in Forall is_bit bits -> bits <> [] -> (32 < fuel)%nat ->
  let L := kt_most (2 * n) in let eps := u * (L + 4) in let v := fmn_loss u n D L eps in
  (4 * n + 2 <= max)%nat -> fmn_room u big max n D L eps ->
  32 * (2 * INR n + 1) * u <= 1 -> 8 * (2 * INR n + 1) * (45 * (INR n * v)) <= 1 ->
  exists s0 code, ffmn_init F C m ktb_init = Ok s0 /\
    compress (fp_coder_of F mul (FFMN_model F (FKTB_model F) C m)) 32 fuel s0 bits = Ok code /\
    forall p (choice : nat -> ktb) (loss : nat -> R), let d := levels m n in
    let sgs := filter (fun sg : nat * nat => (fst sg <? n)%nat) (segments m d 0 p) in
    is_part d p ->
    (forall sg, In sg sgs -> In (choice (fst sg)) (fretained F (FKTB_model F) C m s0 evs (fst sg)) /\
      exists x, run (FKTB_model F) (choice (fst sg)) (firstn (snd sg) (skipn (fst sg) evs)) = Ok (x, - loss (fst sg))) ->
    20 * (INR (length code) - 2) <=
    26 * ((Rsum (map (fun sg => loss (fst sg) + ln (INR (length (fretained F (FKTB_model F) C m s0 evs (fst sg))))) sgs)
           + INR (pcost d p) * ln 2 + INR (pred d) * ln (3 / 2) + INR n * (/ 64 + 25 * v + eps + 32 * (2 * INR n + 1) * u)) / ln 2 + 6).
Proof. exact fmn_code_competes. Qed.
Print Assumptions C109_fmn_competes.

(** 100 bits with 52 digits. *)
Example C109_fmn_ex : let u := powerRZ 2 (-52) in let big := 1000000 in let max := Z.to_nat (2 ^ 52) in
  let bits := alternating 50 in let n := length bits in let D := (Nat.log2 (n + 1) + 1)%nat in
  let L := kt_most (2 * n) in let eps := u * (L + 4) in let v := fmn_loss u n D L eps in
  accurate (chopped 52) u big max /\ 0 <= u <= / 64 /\ 1 <= big /\ multiplies (fun x y => chop 52 (x * y)) u (2 ^ 32) /\
  Forall is_bit bits /\ bits <> [] /\ n = 100%nat /\ (4 * n + 2 <= max)%nat /\ fmn_room u big max n D L eps /\
  32 * (2 * INR n + 1) * u <= 1 /\ 8 * (2 * INR n + 1) * (45 * (INR n * v)) <= 1 /\
  INR n * (25 * v + eps + 32 * (2 * INR n + 1) * u) <= / 1000.
Proof. exact fmn_code_example. Qed.

(** Against a coin whose bias changes. *)
Theorem C109_fmn_drift : forall F u big max, accurate F u big max -> 0 <= u <= / 64 ->
  forall mul, 1 <= big -> multiplies mul u (2 ^ 32) ->
  forall theta cps m bits fuel, (forall t, 0 <= theta t <= 1) -> changes_at theta cps ->
  Forall (fun c => c mod 2 ^ m = 0)%nat cps -> Forall is_bit bits -> bits <> [] -> 0 < drift_prob theta 0 bits -> (32 < fuel)%nat ->
  let n := length bits in let d := levels m n in let k := length cps in let C := LogStore_class ktb in
  let D := (Nat.log2 (n + 1) + 1)%nat in let L := kt_most (2 * n) in let eps := u * (L + 4) in let v := fmn_loss u n D L eps in
  (4 * n + 2 <= max)%nat -> fmn_room u big max n D L eps ->
  32 * (2 * INR n + 1) * u <= 1 -> 8 * (2 * INR n + 1) * (45 * (INR n * v)) <= 1 ->
  exists s0 code, ffmn_init F C m ktb_init = Ok s0 /\
    compress (fp_coder_of F mul (FFMN_model F (FKTB_model F) C m)) 32 fuel s0 bits = Ok code /\
    20 * (INR (length code) - 2) <=
    26 * ((- ln (drift_prob theta 0 bits) + INR (1 + k * d) * (learn n + ln (INR D)) + INR (1 + 2 * k * d) * ln 2
           + INR (pred d) * ln (3 / 2) + INR n * (/ 64 + 25 * v + 2 * eps + 32 * (2 * INR n + 1) * u)) / ln 2 + 6).
Proof. exact fmn_code_drift. Qed.
Print Assumptions C109_fmn_drift.

(** A coin that changes once in 100 tosses. *)
Example C109_fmn_drift_ex : let u := powerRZ 2 (-52) in let big := 1000000 in let max := Z.to_nat (2 ^ 52) in
  let bits := alternating 50 in let n := length bits in let D := (Nat.log2 (n + 1) + 1)%nat in
  let theta := fun t => if (t <? 64)%nat then / 4 else 3 / 4 in
  let L := kt_most (2 * n) in let eps := u * (L + 4) in let v := fmn_loss u n D L eps in
  accurate (chopped 52) u big max /\ 0 <= u <= / 64 /\ 1 <= big /\ multiplies (fun x y => chop 52 (x * y)) u (2 ^ 32) /\
  (forall t, 0 <= theta t <= 1) /\ changes_at theta [64%nat] /\ Forall (fun c => c mod 2 ^ 5 = 0)%nat [64%nat] /\
  Forall is_bit bits /\ incl bits [0; 1]%Z /\ bits <> [] /\ 0 < drift_prob theta 0 bits /\ n = 100%nat /\ D = 7%nat /\ levels 5 n = 2%nat /\
  (4 * n + 2 <= max)%nat /\ fmn_room u big max n D L eps /\
  32 * (2 * INR n + 1) * u <= 1 /\ 8 * (2 * INR n + 1) * (45 * (INR n * v)) <= 1 /\
  INR n * (25 * v + 2 * eps + 32 * (2 * INR n + 1) * u) <= / 500.
Proof. exact fmn_drift_example. Qed.
