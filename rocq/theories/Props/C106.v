(** C106: KT over any alphabet, and CTW over any base model, when floats round. Every sum, difference, division,
    exponential and logarithm may be off by a relative error u; quotients below [tiny] may underflow. *)
From Verif Require Import Spec.FloatsAnySpec Proofs.KTFacts Proofs.FloatsChop Proofs.FloatsKTAny Proofs.FloatsCTWAny Proofs.FloatsAnyTop.
Open Scope R_scope.

(** Without rounding these are the KT and CTW of the other theorems. *)
Theorem C106_exact_kt : FKT_model exact = KT_model.
Proof. exact exact_kt. Qed.
Print Assumptions C106_exact_kt.
Theorem C106_exact_init : forall A, A <> [] -> fkt_init exact A = Ok (kt_init A).
Proof. exact exact_kt_init. Qed.
Print Assumptions C106_exact_init.
Theorem C106_exact_ctw : forall S (M : model S) fresh binary, FCTW_model exact M fresh binary = CTW_model M fresh binary.
Proof. exact @exact_ctw. Qed.
Print Assumptions C106_exact_ctw.

(** KT over any alphabet: what update_seq returns is off by at most [loss]. *)
Theorem C106_kt : forall F u big max, accurate F u big max -> 0 <= u <= / 64 -> forall tiny, divides F u tiny ->
  forall A, NoDup A -> A <> [] -> forall seq h, let n := length seq in let k := length A in incl seq A -> seq <> [] ->
  32 * (INR n + INR k) * u <= 1 -> tiny <= / (2 * INR k * INR n) -> 2 * INR n + 4 <= big -> INR n * kt_worst k n + 2 <= big ->
  let loss := INR n * (kt_off u k n + u * (INR n * kt_worst k n + 2)) in loss <= 1 ->
  exists f1 x y r r', fkt_init F A = Ok f1 /\ fp_update_seq F (FKT_model F) f1 seq h 1 = Ok (x, h, r') /\
    update_seq KT_model (kt_init A) seq h 1 = Ok (y, h, r) /\ Rabs (r' - r) <= loss.
Proof. exact kt_seq. Qed.
Print Assumptions C106_kt.

(** CTW of depth D over any base model which follows an exact one: per symbol, the error of the base model and
    D + 2 times that of an operation are lost. *)
Theorem C106_ctw_any_base : forall F u big max, accurate F u big max -> 0 <= u <= / 64 ->
  forall S1 S2 (M1 : model S1) (M2 : model S2) f1 f2 A okh eps L close binary K D seq h, let n := length seq in
  steady M1 M2 f1 f2 A okh n eps L close -> 0 <= L -> 0 <= eps -> seq <> [] ->
  In 0%Z K -> (binary = true -> incl K [0; 1]%Z) -> (0 < D)%nat -> ctw_room n L <= big -> INR n * ctw_drift u n D L eps <= 1 ->
  Forall (ok_event A (okctx okh K) (eq 1)) (events_from h seq 1) ->
  exists x y r r', fp_update_seq F (FCTW_model F M1 f1 binary) (ctw_init f1 (Z.of_nat D)) seq h 1 = Ok (x, h, r') /\
    update_seq (CTW_model M2 f2 binary) (ctw_init f2 (Z.of_nat D)) seq h 1 = Ok (y, h, r) /\
    Rabs (r' - r) <= INR n * ctw_drift u n (S D) L eps.
Proof. exact @ctw_any. Qed.
Print Assumptions C106_ctw_any_base.

(** In turn CTW follows the exact CTW, so that it may be the base of another model. *)
Theorem C106_ctw_follows : forall F u big max, accurate F u big max -> 0 <= u <= / 64 ->
  forall S1 S2 (M1 : model S1) (M2 : model S2) f1 f2 A okh N eps L close,
  steady M1 M2 f1 f2 A okh N eps L close -> (0 < N)%nat -> 0 <= L -> 0 <= eps ->
  forall binary K D, In 0%Z K -> (binary = true -> incl K [0; 1]%Z) -> (0 < D)%nat -> ctw_room N L <= big -> INR N * ctw_drift u N D L eps <= 1 ->
  steady (FCTW_model F M1 f1 binary) (CTW_model M2 f2 binary) (ctw_init f1 (Z.of_nat D)) (ctw_init f2 (Z.of_nat D))
    A (okctx okh K) N (ctw_off u N D L eps) L (near_c u N eps L close D).
Proof. exact @ctw_steady. Qed.
Print Assumptions C106_ctw_follows.

(** CTW over KT, over any alphabet. *)
Theorem C106_ctw : forall F u big max, accurate F u big max -> 0 <= u <= / 64 -> forall tiny, divides F u tiny ->
  forall A, NoDup A -> A <> [] -> forall K D, In 0%Z K -> (0 < D)%nat ->
  forall seq h, incl seq A -> incl seq K -> incl h K -> seq <> [] -> let n := length seq in let k := length A in
  roomy u big tiny k D n ->
  exists f1 x y r r', fkt_init F A = Ok f1 /\
    fp_update_seq F (FCTW_model F (FKT_model F) f1 false) (ctw_init f1 (Z.of_nat D)) seq h 1 = Ok (x, h, r') /\
    update_seq (CTW_model KT_model (kt_init A) false) (ctw_init (kt_init A) (Z.of_nat D)) seq h 1 = Ok (y, h, r) /\
    Rabs (r' - r) <= INR n * ctw_drift u n (S D) (kt_worst k n) (kt_off u k n).
Proof. exact ctw_kt_seq. Qed.
Print Assumptions C106_ctw.

(** Its predictions. *)
Theorem C106_ctw_predict : forall F u big max, accurate F u big max -> 0 <= u <= / 64 -> forall tiny, divides F u tiny ->
  forall A, NoDup A -> A <> [] -> forall K D, NoDup K -> In 0%Z K -> (0 < D)%nat ->
  forall seq h, incl seq A -> incl seq K -> incl h K -> forall a, let n := length seq in let k := length A in
  roomy u big tiny k D (S n) -> In a A ->
  exists f1 x y lx ly p q, fkt_init F A = Ok f1 /\
    run (FCTW_model F (FKT_model F) f1 false) (ctw_init f1 (Z.of_nat D)) (events_from h seq 1) = Ok (x, lx) /\
    run (CTW_model KT_model (kt_init A) false) (ctw_init (kt_init A) (Z.of_nat D)) (events_from h seq 1) = Ok (y, ly) /\
    m_logp (FCTW_model F (FKT_model F) f1 false) x a (h ++ seq) = Ok p /\
    m_logp (CTW_model KT_model (kt_init A) false) y a (h ++ seq) = Ok q /\
    Rabs (p - q) <= ctw_off u (S n) D (kt_worst k (S n)) (kt_off u k (S n)).
Proof. exact ctw_kt_predict. Qed.
Print Assumptions C106_ctw_predict.

(** Whatever the rounding, updating returns the very number that predicting returns. *)
Theorem C106_kt_agrees : forall F, agrees (FKT_model F).
Proof. exact kt_agrees. Qed.
Print Assumptions C106_kt_agrees.
Theorem C106_ctw_agrees : forall S F (M : model S) fresh binary, agrees M -> agrees (FCTW_model F M fresh binary).
Proof. exact @ctw_agrees. Qed.
Print Assumptions C106_ctw_agrees.

(** PTW over CTW over KT. *)
Theorem C106_ptw : forall F u big max, accurate F u big max -> 0 <= u <= / 64 -> forall tiny, divides F u tiny ->
  forall A, NoDup A -> A <> [] -> forall K D, NoDup K -> In 0%Z K -> (0 < D)%nat ->
  forall seq h, incl seq A -> incl seq K -> incl h K -> seq <> [] -> forall m, let n := length seq in let k := length A in
  roomy u big tiny k D n -> let L := kt_worst k n in let eps := ctw_off u n D L (kt_off u k n) in
  2 * ptw_size n L 0 + 6 <= big -> 25 * (INR n * ptw_loss u n L 0 eps) <= 1 ->
  exists f1 x y r r', fkt_init F A = Ok f1 /\
    let c1 := ctw_init f1 (Z.of_nat D) in let c2 := ctw_init (kt_init A) (Z.of_nat D) in
    fp_update_seq F (FPTW_model F (FCTW_model F (FKT_model F) f1 false) m c1) (ptw_init m c1) seq h 1 = Ok (x, h, r') /\
    update_seq (PTW_model (CTW_model KT_model (kt_init A) false) m c2) (ptw_init m c2) seq h 1 = Ok (y, h, r) /\
    Rabs (r' - r) <= 23 * (INR n * ptw_loss u n L 0 eps).
Proof. exact ctw_kt_ptw. Qed.
Print Assumptions C106_ptw.

(** FMN over CTW over KT. *)
Theorem C106_fmn : forall F u big max, accurate F u big max -> 0 <= u <= / 64 -> forall tiny, divides F u tiny ->
  forall A, NoDup A -> A <> [] -> forall K D, NoDup K -> In 0%Z K -> (0 < D)%nat ->
  forall seq h, incl seq A -> incl seq K -> incl h K -> seq <> [] -> forall m, let n := length seq in let k := length A in
  roomy u big tiny k D (2 * n) -> let L := kt_worst k (2 * n) in let eps := ctw_off u (2 * n) D L (kt_off u k (2 * n)) in
  let d := (Nat.log2 (n + 1) + 1)%nat in fmn_room u big max n d L eps ->
  exists f1, fkt_init F A = Ok f1 /\
    fcompetes F (FCTW_model F (FKT_model F) f1 false) (LogStore_class _) m (ctw_init f1 (Z.of_nat D)) h seq (INR n * (23 * fmn_loss u n d L eps + eps)).
Proof. exact ctw_kt_fmn. Qed.
Print Assumptions C106_fmn.

(** With 52 digits, seven of three symbols and depth 8 the hypotheses hold, and the errors are small. *)
Example C106_ex : let u := powerRZ 2 (-52) in let big := 10000 in let tiny := / 1000 in let max := Z.to_nat (2 ^ 52) in
  let n := 7%nat in let L := kt_worst 3 n in let eps := ctw_off u n 8 L (kt_off u 3 n) in
  let d := (Nat.log2 (n + 1) + 1)%nat in let L2 := kt_worst 3 (2 * n) in let eps2 := ctw_off u (2 * n) 8 L2 (kt_off u 3 (2 * n)) in
  accurate (chopped 52) u big max /\ 0 <= u <= / 64 /\ divides (chopped 52) u tiny /\
  INR n * L + 2 <= big /\ INR n * (kt_off u 3 n + u * (INR n * L + 2)) <= / 1000000000 /\
  roomy u big tiny 3 8 n /\ INR n * ctw_drift u n 9 L (kt_off u 3 n) <= / 1000000000 /\
  2 * ptw_size n L 0 + 6 <= big /\ 25 * (INR n * ptw_loss u n L 0 eps) <= / 1000000 /\
  roomy u big tiny 3 8 (2 * n) /\ fmn_room u big max n d L2 eps2 /\ INR n * (23 * fmn_loss u n d L2 eps2 + eps2) <= / 1000000.
Proof. exact any_example. Qed.
