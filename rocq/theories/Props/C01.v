(** C01: log-space addition is exact and stays in range. *)
From Coq Require Import Lra Permutation.
From Verif Require Import Model.Float Proofs.RealFacts Proofs.LogsumexpFacts.
Open Scope R_scope.

(** Python [logsumexp]: the log of the sum of the exponentials. *)
Theorem C01_logsumexp : forall vals, vals <> [] ->
  logsumexp vals = Ok (ln (Rsum (map exp vals))).
Proof. exact logsumexp_ok. Qed.
Print Assumptions C01_logsumexp.
Example C01_logsumexp_ex : [1; 1000; -1000] <> [].
Proof. discriminate. Qed.

Theorem C01_logsumexp2 : forall a b, logsumexp2 a b = ln (exp a + exp b).
Proof. exact logsumexp2_spec. Qed.
Print Assumptions C01_logsumexp2.
Example C01_logsumexp2_ex : logsumexp2 (ln 3) (ln 4) = ln 7.
Proof. rewrite C01_logsumexp2, !exp_ln by lra. f_equal; lra. Qed.

(** No exponential taken by the code exceeds 1 and the logarithm's argument is at least 1. *)
Theorem C01_logsumexp_in_range : forall vals, vals <> [] ->
  exists shift, (forall v, In v vals -> exp (v - shift) <= 1) /\
    1 <= Rsum (map (fun v => exp (v - shift)) vals) /\
    logsumexp vals = Ok (shift + ln (Rsum (map (fun v => exp (v - shift)) vals))).
Proof. exact logsumexp_in_range. Qed.
Print Assumptions C01_logsumexp_in_range.

Theorem C01_logsumexp2_in_range : forall a b,
  exists shift d, exp d <= 1 /\ logsumexp2 a b = shift + ln (1 + exp d).
Proof. exact logsumexp2_in_range. Qed.
Print Assumptions C01_logsumexp2_in_range.

Theorem C01_logsumexp_order : forall vals vals', Permutation vals vals' ->
  logsumexp vals = logsumexp vals'.
Proof. exact logsumexp_perm. Qed.
Print Assumptions C01_logsumexp_order.

Theorem C01_logsumexp_empty : logsumexp [] = Err ValueError.
Proof. exact eq_refl. Qed.
Print Assumptions C01_logsumexp_empty.

(** The other implementations compute the same function. *)
Theorem C01_helpers_log_sum_exp : forall vals, vals <> [] ->
  h_log_sum_exp vals = Ok (ln (Rsum (map exp vals))).
Proof. exact h_log_sum_exp_ok. Qed.
Print Assumptions C01_helpers_log_sum_exp.

Theorem C01_c_logsumexp2 : forall a b, c_logsumexp2 a b = ln (exp a + exp b).
Proof. exact c_logsumexp2_eq. Qed.
Print Assumptions C01_c_logsumexp2.

Theorem C01_c_logsumexp : forall vals, vals <> [] ->
  c_logsumexp vals = Ok (ln (Rsum (map exp vals))).
Proof. exact c_logsumexp_ok. Qed.
Print Assumptions C01_c_logsumexp.
