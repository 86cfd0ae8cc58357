(** Models built from one another, with rounding and without. *)
From Verif Require Export Spec.FloatsAnySpec Proofs.KTFacts Proofs.PomdpCTW.
Open Scope R_scope.

(** [nest … M1 f1 M2 f2 A okh eps L]: [M1], with initial state [f1], is the program with rounding, and [M2], [f2]
    the exact one, for a KT estimator, a CTW_KT, a CTW over such a model or a PTW over such a model, nested to any depth;
    the rooms are such that [n] updates neither overflow nor lose all digits. [eps]: how far a value may be off;
    [L]: the largest surprise. [K]: the symbols in histories. *)
Inductive nest (F : floats) (u big tiny : R) (max n : nat) (K : list Z) :
  forall S : Type, model S -> S -> model S -> S -> list Z -> (list Z -> Prop) -> R -> R -> Prop :=
| nest_kt A f1 : NoDup A -> A <> [] -> fkt_init F A = Ok f1 ->
    32 * (INR n + INR (length A)) * u <= 1 -> tiny <= / (2 * INR (length A) * INR n) -> 2 * INR n + 4 <= big ->
    nest F u big tiny max n K kt (FKT_model F) f1 KT_model (kt_init A) A any_hist (kt_off u (length A) n) (kt_worst (length A) n)
| nest_ktb : (2 * n + 2 <= max)%nat ->
    nest F u big tiny max n K ktb (FKTB_model F) ktb_init KTB_model ktb_init [0; 1]%Z bit_hist (u * (kt_most n + 4)) (kt_most n)
| nest_ctwkt D : (0 < D)%nat -> (2 * n + 2 <= max)%nat -> allowance n <= big -> INR n * u * ((INR D + 1) * allowance n) <= 1 ->
    nest F u big tiny max n K ctwkt (FCTWKT_model F) (ctwkt_init (Z.of_nat D)) CTWKT_model (ctwkt_init (Z.of_nat D)) [0; 1]%Z bit_hist
      (INR n * u * ((2 * INR D + 3) * allowance n)) (kt_most n)
| nest_ctw S M1 f1 M2 f2 A okh eps L binary D : nest F u big tiny max n K S M1 f1 M2 f2 A okh eps L ->
    In 0%Z K -> (binary = true -> incl K [0; 1]%Z) -> (0 < D)%nat -> ctw_room n L <= big -> INR n * ctw_drift u n D L eps <= 1 ->
    nest F u big tiny max n K ctw (FCTW_model F M1 f1 binary) (ctw_init f1 (Z.of_nat D)) (CTW_model M2 f2 binary) (ctw_init f2 (Z.of_nat D))
      A (okctx okh K) (ctw_off u n D L eps) L
| nest_ptw S M1 f1 M2 f2 A okh eps L m : nest F u big tiny max n K S M1 f1 M2 f2 A okh eps L ->
    2 * ptw_size n L 0 + 6 <= big -> 25 * (INR n * ptw_loss u n L 0 eps) <= 1 ->
    nest F u big tiny max n K ptw (FPTW_model F M1 m f1) (ptw_init m f1) (PTW_model M2 m f2) (ptw_init m f2)
      A okh (45 * (INR n * ptw_loss u n L 0 eps)) L.
