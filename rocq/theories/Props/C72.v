(** C72: rounding errors. *)
From Verif Require Import Spec.FloatsSpec Spec.Prob Proofs.FloatsFacts Proofs.FloatsChop Proofs.FloatsCTW.
Open Scope R_scope.

(** Without rounding, the code with explicit arithmetic is the code of the other files. *)
Theorem C72_exact : FCTWKT_model exact = CTWKT_model /\ (forall a b, fp_logsumexp2 exact a b = logsumexp2 a b).
Proof. exact (conj exact_model exact_logsumexp2). Qed.
Print Assumptions C72_exact.

(** Whatever the arithmetic does: CTW_KT.update returns the very number that log_predict returned, and
    raises what it raised. *)
Theorem C72_same_number : forall F s a h w,
  m_logp (FCTWKT_model F) s a h =
  match m_update (FCTWKT_model F) s a h w with Ok (_, l) => Ok l | Err e => Err e end.
Proof. exact model_predict_is_update. Qed.
Print Assumptions C72_same_number.

(** logsumexp2 loses a few units of rounding error, absolutely and in proportion to its arguments. *)
Theorem C72_logsumexp2 : forall F u big max, accurate F u big max -> 0 <= u <= / 64 ->
  forall a b B, Rabs a <= B -> Rabs b <= B -> 2 * B + 4 <= big ->
  Rabs (fp_logsumexp2 F a b - ln (exp a + exp b)) <= u * (B + 11).
Proof. exact lse2_error. Qed.
Print Assumptions C72_logsumexp2.

(** A whole sequence of bits with CTW_KT of any depth: nothing is raised, and the value returned differs
    from that of exact arithmetic by at most n u (D + 2) (4 n ln (2 n + 2) + 30). *)
Theorem C72_ctw : forall F u big max D seq h, accurate F u big max -> 0 <= u <= / 64 -> (0 < D)%nat ->
  incl seq [0; 1]%Z -> incl h [0; 1]%Z -> seq <> [] ->
  let n := length seq in
  (2 * n + 2 <= max)%nat -> allowance n <= big -> INR n * u * ((INR D + 1) * allowance n) <= 1 ->
  exists x y r r', fp_update_seq F (FCTWKT_model F) (ctwkt_init (Z.of_nat D)) seq h 1 = Ok (x, h, r') /\
    update_seq CTWKT_model (ctwkt_init (Z.of_nat D)) seq h 1 = Ok (y, h, r) /\
    Rabs (r' - r) <= INR n * u * ((INR D + 2) * allowance n).
Proof. exact whole_error. Qed.
Print Assumptions C72_ctw.

(** The predictions after it are close to the exact ones, and those of 0 and 1 sum to nearly one. *)
Theorem C72_predict : forall F u big max D seq h, accurate F u big max -> 0 <= u <= / 64 -> (0 < D)%nat ->
  incl seq [0; 1]%Z -> incl h [0; 1]%Z -> seq <> [] ->
  let n := S (length seq) in
  (2 * n + 2 <= max)%nat -> allowance n <= big -> INR n * u * ((INR D + 1) * allowance n) <= 1 ->
  exists x y r r', fp_update_seq F (FCTWKT_model F) (ctwkt_init (Z.of_nat D)) seq h 1 = Ok (x, h, r') /\
    update_seq CTWKT_model (ctwkt_init (Z.of_nat D)) seq h 1 = Ok (y, h, r) /\
    forall h', incl h' [0; 1]%Z ->
      (forall a, In a [0; 1]%Z -> exists p q, m_logp (FCTWKT_model F) x a h' = Ok p /\ m_logp CTWKT_model y a h' = Ok q /\
        Rabs (p - q) <= INR n * u * ((2 * INR D + 3) * allowance n)) /\
      exp (- (INR n * u * ((2 * INR D + 3) * allowance n)))
        <= pred_prob (FCTWKT_model F) x 0 h' + pred_prob (FCTWKT_model F) x 1 h'
        <= exp (INR n * u * ((2 * INR D + 3) * allowance n)).
Proof. exact predict_error. Qed.
Print Assumptions C72_predict.

(** An arithmetic that cuts off every result after p binary digits is accurate, with u = 2^-p. *)
Theorem C72_rounding : forall p big, (0 <= p)%Z -> accurate (chopped p) (powerRZ 2 (- p)) big (Z.to_nat (2 ^ p)).
Proof. exact chopped_accurate. Qed.
Print Assumptions C72_rounding.

(** With 52 digits, depth 8 and 7 bits the hypotheses of the theorems above hold, and the arithmetic is
    not exact. *)
Example C72_ex : let u := powerRZ 2 (-52) in let n := 7%nat in
  accurate (chopped 52) u 1000 (Z.to_nat (2 ^ 52)) /\ 0 <= u <= / 64 /\ (2 * n + 2 <= Z.to_nat (2 ^ 52))%nat /\
  allowance n <= 1000 /\ INR n * u * ((INR 8 + 1) * allowance n) <= 1 /\
  chop 52 (1 / 3) <> 1 / 3.
Proof. exact chopped_example. Qed.
