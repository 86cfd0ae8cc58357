(** C73: rounding errors of PTW. *)
From Verif Require Import Spec.FloatsSpec Proofs.FloatsPTW Proofs.FloatsChop.
Open Scope R_scope.

(** Without rounding, the code with explicit arithmetic is the code of the other files. *)
Theorem C73_exact : (forall S (M : model S) m fresh, FPTW_model exact M m fresh = PTW_model M m fresh) /\ FKTB_model exact = KTB_model.
Proof. exact (conj (fun S M m fresh => exact_ptw M m fresh) exact_ktb). Qed.
Print Assumptions C73_exact.

(** PTW over any base model whose computed values follow the exact ones: nothing is raised, and the value
    returned for a whole sequence differs from that of exact arithmetic by at most 23 n times the loss
    per step. *)
Theorem C73_any_base : forall F u big max m, accurate F u big max -> 0 <= u <= / 64 ->
  forall S1 S2 (M1 : model S1) (M2 : model S2) f1 f2 ok eps L c close seq h,
  let n := length seq in tracks M1 M2 f1 f2 ok n eps L c close -> 0 <= L -> 0 <= c -> 0 <= eps ->
  ok_run ok h seq -> seq <> [] -> 2 * ptw_size n L c + 6 <= big -> 25 * (INR n * ptw_loss u n L c eps) <= 1 ->
  exists x y r r', fp_update_seq F (FPTW_model F M1 m f1) (ptw_init m f1) seq h 1 = Ok (x, h, r') /\
    update_seq (PTW_model M2 m f2) (ptw_init m f2) seq h 1 = Ok (y, h, r) /\
    Rabs (r' - r) <= 23 * (INR n * ptw_loss u n L c eps).
Proof. exact (fun F u big max m HF Hu S1 S2 => ptw_any F u big max m HF Hu). Qed.
Print Assumptions C73_any_base.

(** Over KTBinary, for every sequence of bits. *)
Theorem C73_kt : forall F u big max m, accurate F u big max -> 0 <= u <= / 64 ->
  forall seq h, incl seq [0; 1]%Z -> incl h [0; 1]%Z -> seq <> [] ->
  let n := length seq in let loss := ptw_loss u n (kt_most n) 0 (u * (kt_most n + 4)) in
  (2 * n + 2 <= max)%nat -> 2 * ptw_size n (kt_most n) 0 + 6 <= big -> 25 * (INR n * loss) <= 1 ->
  exists x y r r', fp_update_seq F (FPTW_model F (FKTB_model F) m ktb_init) (ptw_init m ktb_init) seq h 1 = Ok (x, h, r') /\
    update_seq (PTW_model KTB_model m ktb_init) (ptw_init m ktb_init) seq h 1 = Ok (y, h, r) /\
    Rabs (r' - r) <= 23 * (INR n * loss).
Proof. exact ptw_kt. Qed.
Print Assumptions C73_kt.

(** Over CTW_KT of any depth, for every sequence of bits. *)
Theorem C73_ctw : forall F u big max m, accurate F u big max -> 0 <= u <= / 64 ->
  forall seq h, incl seq [0; 1]%Z -> incl h [0; 1]%Z -> seq <> [] -> forall D,
  let n := length seq in let eps := INR n * u * ((2 * INR D + 3) * allowance n) in let loss := ptw_loss u n (kt_most n) 1 eps in
  (0 < D)%nat -> (2 * n + 2 <= max)%nat -> allowance n <= big -> INR n * u * ((INR D + 1) * allowance n) <= 1 ->
  2 * ptw_size n (kt_most n) 1 + 6 <= big -> 25 * (INR n * loss) <= 1 ->
  exists x y r r',
    fp_update_seq F (FPTW_model F (FCTWKT_model F) m (ctwkt_init (Z.of_nat D))) (ptw_init m (ctwkt_init (Z.of_nat D))) seq h 1 = Ok (x, h, r') /\
    update_seq (PTW_model CTWKT_model m (ctwkt_init (Z.of_nat D))) (ptw_init m (ctwkt_init (Z.of_nat D))) seq h 1 = Ok (y, h, r) /\
    Rabs (r' - r) <= 23 * (INR n * loss).
Proof. exact ptw_ctw. Qed.
Print Assumptions C73_ctw.

(** With 52 digits, depth 8 and 7 bits the hypotheses of the theorems above hold. *)
Example C73_ex : let u := powerRZ 2 (-52) in let n := 7%nat in
  accurate (chopped 52) u 2000 (Z.to_nat (2 ^ 52)) /\ 0 <= u <= / 64 /\ (2 * n + 2 <= Z.to_nat (2 ^ 52))%nat /\
  allowance n <= 2000 /\ INR n * u * ((INR 8 + 1) * allowance n) <= 1 /\
  2 * ptw_size n (kt_most n) 1 + 6 <= 2000 /\
  25 * (INR n * ptw_loss u n (kt_most n) 1 (INR n * u * ((2 * INR 8 + 3) * allowance n))) <= 1 /\
  2 * ptw_size n (kt_most n) 0 + 6 <= 2000 /\
  25 * (INR n * ptw_loss u n (kt_most n) 0 (u * (kt_most n + 4))) <= 1.
Proof. exact ptw_example. Qed.
