(** C107: models nested in one another, to any depth, when floats round. *)
From Verif Require Import Spec.FloatsNestSpec Proofs.FloatsPTWSteady Proofs.FloatsNest Proofs.FloatsPTWPredict.
Open Scope R_scope.

(** PTW over a model which follows an exact one follows the exact PTW, step by step. *)
Theorem C107_ptw_follows : forall F u big max, accurate F u big max -> 0 <= u <= / 64 ->
  forall S1 S2 (M1 : model S1) (M2 : model S2) f1 f2 A okh N eps L close,
  steady M1 M2 f1 f2 A okh N eps L close -> forall m, (0 < N)%nat -> 0 <= L -> 0 <= eps ->
  2 * ptw_size N L 0 + 6 <= big -> 25 * (INR N * ptw_loss u N L 0 eps) <= 1 ->
  steady (FPTW_model F M1 m f1) (PTW_model M2 m f2) (ptw_init m f1) (ptw_init m f2) A okh N
    (45 * (INR N * ptw_loss u N L 0 eps)) L (psame u N eps L close m).
Proof. exact @ptw_steady. Qed.
Print Assumptions C107_ptw_follows.

(** The total of any nested model. *)
Theorem C107_total : forall F u big tiny max K, accurate F u big max -> divides F u tiny -> 0 <= u <= / 64 ->
  forall S (M1 : model S) f1 M2 f2 A okh eps L seq h, let n := length seq in nest F u big tiny max n K S M1 f1 M2 f2 A okh eps L ->
  seq <> [] -> INR n * L + 2 <= big -> let loss := INR n * (eps + u * (INR n * L + 2)) in loss <= 1 ->
  Forall (ok_event A okh (eq 1)) (events_from h seq 1) ->
  exists x y r r', fp_update_seq F M1 f1 seq h 1 = Ok (x, h, r') /\ update_seq M2 f2 seq h 1 = Ok (y, h, r) /\ Rabs (r' - r) <= loss.
Proof. exact nest_total. Qed.
Print Assumptions C107_total.

(** Each value that update returns. The exact value lies within the range of the estimator at the bottom. *)
Theorem C107_values : forall F u big tiny max n K, accurate F u big max -> divides F u tiny -> 0 <= u <= / 64 -> (0 < n)%nat ->
  forall S (M1 : model S) f1 M2 f2 A okh eps L, nest F u big tiny max n K S M1 f1 M2 f2 A okh eps L ->
  forall evs a h, (length evs < n)%nat -> Forall (ok_event A okh (eq 1)) evs -> In a A -> okh h ->
  exists x y lx ly x' y' p q, run M1 f1 evs = Ok (x, lx) /\ run M2 f2 evs = Ok (y, ly) /\
    m_update M1 x a h 1 = Ok (x', p) /\ m_update M2 y a h 1 = Ok (y', q) /\ Rabs (p - q) <= eps /\ - L <= q <= 0.
Proof. exact @nest_values. Qed.
Print Assumptions C107_values.

(** With 52 digits and seven of three symbols: a PTW over CTW of depth 8 over PTW over KT. *)
Example C107_ex : let u := powerRZ 2 (-52) in let max := Z.to_nat (2 ^ 52) in
  accurate (chopped 52) u 10000 max /\ divides (chopped 52) u (/ 1000) /\ 0 <= u <= / 64 /\
  (exists f1 eps, fkt_init (chopped 52) [0; 1; 2]%Z = Ok f1 /\
    nest (chopped 52) u 10000 (/ 1000) max 7 [0; 1; 2]%Z _
      (FPTW_model (chopped 52) (FCTW_model (chopped 52) (FPTW_model (chopped 52) (FKT_model (chopped 52)) 0 f1) (ptw_init 0 f1) false) 1 (ctw_init (ptw_init 0 f1) (Z.of_nat 8)))
      (ptw_init 1 (ctw_init (ptw_init 0 f1) (Z.of_nat 8)))
      (PTW_model (CTW_model (PTW_model KT_model 0 (kt_init [0; 1; 2]%Z)) (ptw_init 0 (kt_init [0; 1; 2]%Z)) false) 1 (ctw_init (ptw_init 0 (kt_init [0; 1; 2]%Z)) (Z.of_nat 8)))
      (ptw_init 1 (ctw_init (ptw_init 0 (kt_init [0; 1; 2]%Z)) (Z.of_nat 8)))
      [0; 1; 2]%Z (okctx any_hist [0; 1; 2]%Z) eps (kt_worst 3 7) /\ INR 7 * (eps + u * (INR 7 * kt_worst 3 7 + 2)) <= / 1000) /\ INR 7 * kt_worst 3 7 + 2 <= 10000.
Proof. exact nest_example. Qed.

(** What PTW predicts before an update, over a model whose prediction is what its update returns. *)
Theorem C107_ptw_predict : forall F u big max, accurate F u big max -> 0 <= u <= / 64 ->
  forall S1 S2 (M1 : model S1) (M2 : model S2) f1 f2 A okh N eps L close,
  steady M1 M2 f1 f2 A okh N eps L close -> agrees M1 -> agrees M2 -> forall m, (0 < N)%nat -> 0 <= L -> 0 <= eps ->
  2 * ptw_size N L 0 + 6 <= big -> 25 * (INR N * ptw_loss u N L 0 eps) <= 1 ->
  forall evs a h, (length evs < N)%nat -> Forall (ok_event A okh (eq 1)) evs -> In a A -> okh h ->
  exists x y lx ly p q, run (FPTW_model F M1 m f1) (ptw_init m f1) evs = Ok (x, lx) /\ run (PTW_model M2 m f2) (ptw_init m f2) evs = Ok (y, ly) /\
    m_logp (FPTW_model F M1 m f1) x a h = Ok p /\ m_logp (PTW_model M2 m f2) y a h = Ok q /\ Rabs (p - q) <= 45 * (INR N * ptw_loss u N L 0 eps).
Proof. exact @ptw_predictions. Qed.
Print Assumptions C107_ptw_predict.

Example C107_predict_ex : let u := powerRZ 2 (-52) in let F := chopped 52 in let L := kt_worst 3 7 in let eps := ctw_off u 7 8 L (kt_off u 3 7) in
  accurate F u 10000 (Z.to_nat (2 ^ 52)) /\ 0 <= u <= / 64 /\
  (exists f1 close, fkt_init F [0; 1; 2]%Z = Ok f1 /\
    let M1 := FCTW_model F (FKT_model F) f1 false in let M2 := CTW_model KT_model (kt_init [0; 1; 2]%Z) false in
    steady M1 M2 (ctw_init f1 (Z.of_nat 8)) (ctw_init (kt_init [0; 1; 2]%Z) (Z.of_nat 8)) [0; 1; 2]%Z (okctx any_hist [0; 1; 2]%Z) 7 eps L close /\
    agrees M1 /\ agrees M2) /\
  0 <= L /\ 0 <= eps /\ 2 * ptw_size 7 L 0 + 6 <= 10000 /\ 45 * (INR 7 * ptw_loss u 7 L 0 eps) <= / 100000.
Proof. exact predict_example. Qed.
