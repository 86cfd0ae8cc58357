(** C101: rounding errors of Averager. *)
From Verif Require Import Spec.FloatsAvgSpec Proofs.FloatsFacts Proofs.FloatsPTW Proofs.FloatsChop Proofs.FloatsAvgFacts Proofs.FloatsAvgTop Proofs.FloatsAvgCTW.
Open Scope R_scope.

(** Without rounding, the code with explicit arithmetic is the code of the other files. *)
Theorem C101_exact : (forall v, fp_logsumexp exact v = logsumexp v) /\
  (forall S (M : model S), FAVG_model exact M = AVG_model M) /\
  (forall S (ms : list (Z * S)), favg_init exact ms = avg_init ms).
Proof. exact (conj exact_lse (conj (fun S M => exact_avg M) (fun S ms => exact_avg_init ms))). Qed.
Print Assumptions C101_exact.

(** logsumexp of d numbers of size at most A: nothing is raised, and the error is at most
    u (A + 4 (d + 1)^2). *)
Theorem C101_logsumexp : forall F u big max, accurate F u big max -> 0 <= u <= / 64 ->
  forall v A, v <> [] -> let d := length v in (forall x, In x v -> Rabs x <= A) ->
  2 * A + 4 * (INR d + 1) ^ 2 <= big -> 8 * (INR d + 1) ^ 2 * u <= 1 ->
  exists r, fp_logsumexp F v = Ok r /\ Rabs (r - ln (Rsum (map exp v))) <= u * (A + 4 * (INR d + 1) ^ 2).
Proof. exact lse_err. Qed.
Print Assumptions C101_logsumexp.

(** An average of any models whose computed values follow the exact ones: nothing is raised; the value
    returned for a whole sequence is close to that of exact arithmetic; the model which [map] chooses is
    within twice the drift of the best in exact arithmetic, and it is the best one if that leads by more. *)
Theorem C101_any_models : forall F u big max, accurate F u big max -> 0 <= u <= / 64 ->
  forall S1 S2 (M1 : model S1) (M2 : model S2) ok eps L c close ms1 ms2, 0 <= L -> 0 <= c -> 0 <= eps ->
  ms1 <> [] -> NoDup (map fst ms1) -> let d := length ms1 in (2 * d <= max)%nat ->
  forall seq h, let n := length seq in follow M1 M2 ok n eps L c close ms1 ms2 ->
  2 * avg_size n d L c + 4 * (INR d + 1) ^ 2 <= big -> 2 * avg_drift u n d L c eps <= 1 -> ok_run ok h seq -> seq <> [] ->
  exists s1 s2 x y r r', favg_init F ms1 = Ok s1 /\ avg_init ms2 = Ok s2 /\
    fp_update_seq F (FAVG_model F M1) s1 seq h 1 = Ok (x, h, r') /\ update_seq (AVG_model M2) s2 seq h 1 = Ok (y, h, r) /\
    Rabs (r' - r) <= avg_loss u n d L c eps /\
    exists k m1, avg_map x = Ok (k, m1) /\ (exists m2 w, In (k, (m2, w)) (av_models y) /\
      forall k' m' w', In (k', (m', w')) (av_models y) -> w' <= w + 2 * avg_drift u n d L c eps) /\
    forall kb mb wb, In (kb, (mb, wb)) (av_models y) ->
      (forall k' m' w', In (k', (m', w')) (av_models y) -> k' <> kb -> w' + 2 * avg_drift u n d L c eps < wb) -> k = kb.
Proof. exact @average_seq. Qed.
Print Assumptions C101_any_models.

(** The prediction of the next symbol. *)
Theorem C101_prediction : forall F u big max, accurate F u big max -> 0 <= u <= / 64 ->
  forall S1 S2 (M1 : model S1) (M2 : model S2) ok eps L c close ms1 ms2, 0 <= L -> 0 <= c -> 0 <= eps ->
  ms1 <> [] -> NoDup (map fst ms1) -> let d := length ms1 in (2 * d <= max)%nat ->
  forall seq h a, let N := S (length seq) in follow M1 M2 ok N eps L c close ms1 ms2 ->
  (forall k, foresees M1 M2 ok N eps L c (close k)) ->
  2 * avg_size N d L c + 4 * (INR d + 1) ^ 2 <= big -> 2 * avg_drift u N d L c eps <= 1 -> ok_run ok h (seq ++ [a]) -> seq <> [] ->
  exists s1 s2 x y r r' p p', favg_init F ms1 = Ok s1 /\ avg_init ms2 = Ok s2 /\
    fp_update_seq F (FAVG_model F M1) s1 seq h 1 = Ok (x, h, r') /\ update_seq (AVG_model M2) s2 seq h 1 = Ok (y, h, r) /\
    m_logp (FAVG_model F M1) x a (h ++ seq) = Ok p' /\ m_logp (AVG_model M2) y a (h ++ seq) = Ok p /\
    Rabs (p' - p) <= avg_eps u N d L c eps.
Proof. exact @average_predict. Qed.
Print Assumptions C101_prediction.

(** An average can itself be a member of an average, or the base of PTW (C73_any_base). *)
Theorem C101_nests : forall F u big max, accurate F u big max -> 0 <= u <= / 64 ->
  forall S1 S2 (M1 : model S1) (M2 : model S2) ok eps L c close ms1 ms2, 0 <= L -> 0 <= c -> 0 <= eps ->
  ms1 <> [] -> NoDup (map fst ms1) -> let d := length ms1 in (2 * d <= max)%nat ->
  forall N, follow M1 M2 ok N eps L c close ms1 ms2 ->
  2 * avg_size N d L c + 4 * (INR d + 1) ^ 2 <= big -> 2 * avg_drift u N d L c eps <= 1 ->
  exists s1 s2 close', favg_init F ms1 = Ok s1 /\ avg_init ms2 = Ok s2 /\
    tracks (FAVG_model F M1) (AVG_model M2) s1 s2 ok N (avg_eps u N d L c eps) L c close'.
Proof. exact @average_tracks. Qed.
Print Assumptions C101_nests.

(** An average of CTW_KT predictors of depths up to D, for every sequence of bits. *)
Theorem C101_ctw : forall F u big max, accurate F u big max -> 0 <= u <= / 64 ->
  forall seq h ds D, incl seq [0; 1]%Z -> incl h [0; 1]%Z -> seq <> [] ->
  (forall k e, In (k, e) ds -> (0 < e <= D)%nat) -> ds <> [] -> NoDup (map fst ds) ->
  let n := length seq in let d := length ds in let eps := INR n * u * ((2 * INR D + 3) * allowance n) in
  (2 * n + 2 <= max)%nat -> (2 * d <= max)%nat -> allowance n <= big -> INR n * u * ((INR D + 1) * allowance n) <= 1 ->
  2 * avg_size n d (kt_most n) 1 + 4 * (INR d + 1) ^ 2 <= big -> 2 * avg_drift u n d (kt_most n) 1 eps <= 1 ->
  exists s1 s2 x y r r', favg_init F (depths ds) = Ok s1 /\ avg_init (depths ds) = Ok s2 /\
    fp_update_seq F (FAVG_model F (FCTWKT_model F)) s1 seq h 1 = Ok (x, h, r') /\
    update_seq (AVG_model CTWKT_model) s2 seq h 1 = Ok (y, h, r) /\
    Rabs (r' - r) <= avg_loss u n d (kt_most n) 1 eps.
Proof. exact ctws_seq. Qed.
Print Assumptions C101_ctw.

(** PTW over such an average. *)
Theorem C101_ptw : forall F u big max, accurate F u big max -> 0 <= u <= / 64 ->
  forall seq h ds D, incl seq [0; 1]%Z -> incl h [0; 1]%Z -> seq <> [] ->
  (forall k e, In (k, e) ds -> (0 < e <= D)%nat) -> ds <> [] -> NoDup (map fst ds) ->
  let n := length seq in let d := length ds in let eps := INR n * u * ((2 * INR D + 3) * allowance n) in
  (2 * n + 2 <= max)%nat -> (2 * d <= max)%nat -> allowance n <= big -> INR n * u * ((INR D + 1) * allowance n) <= 1 ->
  2 * avg_size n d (kt_most n) 1 + 4 * (INR d + 1) ^ 2 <= big -> 2 * avg_drift u n d (kt_most n) 1 eps <= 1 ->
  forall m, let e := avg_eps u n d (kt_most n) 1 eps in
  2 * ptw_size n (kt_most n) 1 + 6 <= big -> 25 * (INR n * ptw_loss u n (kt_most n) 1 e) <= 1 ->
  exists s1 s2 x y r r', favg_init F (depths ds) = Ok s1 /\ avg_init (depths ds) = Ok s2 /\
    fp_update_seq F (FPTW_model F (FAVG_model F (FCTWKT_model F)) m s1) (ptw_init m s1) seq h 1 = Ok (x, h, r') /\
    update_seq (PTW_model (AVG_model CTWKT_model) m s2) (ptw_init m s2) seq h 1 = Ok (y, h, r) /\
    Rabs (r' - r) <= 23 * (INR n * ptw_loss u n (kt_most n) 1 e).
Proof. exact ctws_ptw. Qed.
Print Assumptions C101_ptw.

(** With 52 digits, depths 1 and 8 and 7 bits the hypotheses hold, and the error is below 1e-9. *)
Example C101_ex : let u := powerRZ 2 (-52) in let n := 7%nat in let ds := [(0%Z, 1%nat); (1%Z, 8%nat)] in
  let d := 2%nat in let eps := INR n * u * ((2 * INR 8 + 3) * allowance n) in
  accurate (chopped 52) u 2000 (Z.to_nat (2 ^ 52)) /\ 0 <= u <= / 64 /\
  (forall k e, In (k, e) ds -> (0 < e <= 8)%nat) /\ NoDup (map fst ds) /\
  (2 * n + 2 <= Z.to_nat (2 ^ 52))%nat /\ (2 * d <= Z.to_nat (2 ^ 52))%nat /\ allowance n <= 2000 /\
  INR n * u * ((INR 8 + 1) * allowance n) <= 1 /\
  2 * avg_size n d (kt_most n) 1 + 4 * (INR d + 1) ^ 2 <= 2000 /\ 2 * avg_drift u n d (kt_most n) 1 eps <= 1 /\
  2 * ptw_size n (kt_most n) 1 + 6 <= 2000 /\
  25 * (INR n * ptw_loss u n (kt_most n) 1 (avg_eps u n d (kt_most n) 1 eps)) <= 1 /\
  avg_loss u n d (kt_most n) 1 eps <= / 1000000000.
Proof. exact ctws_example. Qed.

(** These predictors are models which follow the exact ones, in predictions as well as in updates. *)
Example C101_follow_ex : forall F u big max n D ds, accurate F u big max -> 0 <= u <= / 64 -> (0 < n)%nat ->
  (forall k e, In (k, e) ds -> (0 < e <= D)%nat) -> (2 * n + 2 <= max)%nat -> allowance n <= big ->
  INR n * u * ((INR D + 1) * allowance n) <= 1 -> let eps := INR n * u * ((2 * INR D + 3) * allowance n) in
  exists close, follow (FCTWKT_model F) CTWKT_model bits_ok n eps (ln (2 * INR n + 2)) 1 close (depths ds) (depths ds) /\
    forall k, foresees (FCTWKT_model F) CTWKT_model bits_ok n eps (ln (2 * INR n + 2)) 1 (close k).
Proof.
  exact (fun F u big max n D ds HF Hu Hn Hds Hmax Hall Hsm => ex_intro _ (some_close u n ds)
    (conj (ctws_follow F u big max HF Hu n D ds Hn Hds Hmax Hall Hsm) (ctws_foresee F u big max HF Hu n D ds Hn Hds Hmax Hall Hsm))).
Qed.
