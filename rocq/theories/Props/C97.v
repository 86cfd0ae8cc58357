(** C97: the class Factorized of ctw.py. [upd] and [prd] are update and log_predict of the factors, which
    are given the history; [fresh] is what the factory returns; [n] is nfactors. [with_history [] ops]
    are the calls with all symbols updated before as history. *)
From Coq Require Import Lra.
From Verif Require Import Model.CtwFactorize Spec.CtwFactorizeSpec Spec.CTWSpec Proofs.CtwFactorizeTop Proofs.CtwKTFacts Proofs.KTFacts.
Open Scope R_scope.
Notation no_hist := (fun h : list Z => h = []).
Notation adds_up Q := (forall s a h w s' l, m_update (q_model Q) s a h w = Ok (s', l) -> q_lp Q s' = q_lp Q s + l).
Notation updF Q fresh D := (ctw_factor_update Q fresh (mkcontext (Z.of_nat D))).
Notation prdF Q fresh D := (ctw_factor_predict Q fresh (mkcontext (Z.of_nat D))).

(** Every factor does what it would do alone, given the calls at its positions and their histories; the
    values returned are those of the factors, log_prob is the sum of what the updates return. *)
Theorem C97_routes : forall S (upd : S -> Z -> list Z -> R -> result (S * R)) prd fresh n, (0 < n)%nat -> forall ops s rs,
  hexec (fz_update upd (Z.of_nat n)) (fz_log_predict prd (Z.of_nat n)) (fz_init fresh (Z.of_nat n)) ops = Ok (s, rs) ->
  length rs = length ops /\ fo_history s = updated ops /\ fo_log_prob s = Rsum (update_values ops rs) /\ length (fo_models s) = n /\
  forall i, (i < n)%nat -> exists m, nth_error (fo_models s) i = Some m /\
    exec upd prd fresh (map fst (mine n i (combine (with_history [] ops) rs))) =
    Ok (m, map snd (mine n i (combine (with_history [] ops) rs))).
Proof. exact @fz_routes. Qed.
Print Assumptions C97_routes.

(** The calls raise nothing if no factor alone raises on its calls. *)
Theorem C97_runs : forall S (upd : S -> Z -> list Z -> R -> result (S * R)) prd fresh n, (0 < n)%nat -> forall ops,
  (forall i, (i < n)%nat -> exists x, exec upd prd fresh (my_ops n i (with_history [] ops)) = Ok x) ->
  exists s rs, hexec (fz_update upd (Z.of_nat n)) (fz_log_predict prd (Z.of_nat n)) (fz_init fresh (Z.of_nat n)) ops = Ok (s, rs).
Proof. exact @fz_runs. Qed.
Print Assumptions C97_runs.

(** update_seq is the updates one by one and returns the sum of what they return. *)
Theorem C97_update_seq : forall S (upd : S -> Z -> list Z -> R -> result (S * R)) prd n s seq w,
  fz_update_seq upd (Z.of_nat n) s seq w =
  do (s', rs) <- hexec (fz_update upd (Z.of_nat n)) (fz_log_predict prd (Z.of_nat n)) s (map (fun a => HUpdate a w) seq); Ok (s', Rsum rs).
Proof. exact @fz_update_seq_sum. Qed.
Print Assumptions C97_update_seq.

(** log_predict_seq of a sequence that is not empty is the sum of what the factors predict in the growing
    history; history and log_prob are as before. *)
Theorem C97_log_predict_seq : forall S (upd : S -> Z -> list Z -> R -> result (S * R)) prd fresh n, (0 < n)%nat -> forall ops s rs0 seq s' l,
  hexec (fz_update upd (Z.of_nat n)) (fz_log_predict prd (Z.of_nat n)) (fz_init fresh (Z.of_nat n)) ops = Ok (s, rs0) ->
  seq <> [] -> fz_log_predict_seq prd (Z.of_nat n) s seq = (s', Ok l) ->
  fo_history s' = fo_history s /\ fo_update_history s' = true /\ fo_log_prob s' = fo_log_prob s /\
  exists rs, length rs = length seq /\ l = Rsum rs /\
    forall i, (i < n)%nat -> exists m m', nth_error (fo_models s) i = Some m /\ nth_error (fo_models s') i = Some m' /\
      exec upd prd m (map fst (mine n i (combine (predict_ops (updated ops) seq) rs))) =
      Ok (m', map snd (mine n i (combine (predict_ops (updated ops) seq) rs))).
Proof. exact @fz_predict_seq. Qed.
Print Assumptions C97_log_predict_seq.

(** Over CTW of any depth > 0: the probability of a sequence is the product over the factors of the
    context-tree-weighting probability of the symbols at their positions, each after all symbols before it. *)
Theorem C97_ctw : forall S (Q : probseq S), adds_up Q -> forall fresh, q_lp Q fresh = 0 -> forall D n, (0 < D)%nat -> (0 < n)%nat ->
  forall A okw Inv K, steps (q_model Q) A no_hist okw Inv -> Inv fresh -> NoDup K -> In 0%Z K -> incl A K -> okw 1 ->
  forall sw, Forall (fun p => In (fst p) A /\ okw (snd p)) sw ->
  exists s rs, hexec (fz_update (updF Q fresh D) (Z.of_nat n)) (fz_log_predict (prdF Q fresh D) (Z.of_nat n))
                     (fz_init (qobj_init fresh (Z.of_nat D)) (Z.of_nat n)) (updates sw) = Ok (s, rs) /\
    fo_history s = map fst sw /\ fo_log_prob s = Rsum rs /\
    exp (Rsum rs) = Rprod (map (fun i => ctw_prob (without_history (q_model Q)) fresh (recent D) K D []
                                           (my_events n i (events_after [] sw))) (seq 0 n)).
Proof. exact @fz_ctw. Qed.
Print Assumptions C97_ctw.

(** After any calls: log_predict says what update will return, and the predictions sum to one. *)
Theorem C97_ctw_log_predict : forall S (Q : probseq S), adds_up Q -> forall fresh, q_lp Q fresh = 0 -> forall D n, (0 < D)%nat -> (0 < n)%nat ->
  forall A okw Inv K, steps (q_model Q) A no_hist okw Inv -> Inv fresh -> NoDup K -> In 0%Z K -> incl A K -> okw 1 ->
  forall ops, Forall (ok_hop A okw) ops ->
  exists s rs, hexec (fz_update (updF Q fresh D) (Z.of_nat n)) (fz_log_predict (prdF Q fresh D) (Z.of_nat n))
                     (fz_init (qobj_init fresh (Z.of_nat D)) (Z.of_nat n)) ops = Ok (s, rs) /\
    forall a w, In a A -> okw w -> exists s' s'' l,
      fz_update (updF Q fresh D) (Z.of_nat n) s a w = Ok (s', l) /\ fz_log_predict (prdF Q fresh D) (Z.of_nat n) s a = Ok (s'', l).
Proof. exact @fz_ctw_agrees. Qed.
Print Assumptions C97_ctw_log_predict.

Theorem C97_ctw_distribution : forall S (Q : probseq S), adds_up Q -> forall fresh, q_lp Q fresh = 0 -> forall D n, (0 < D)%nat -> (0 < n)%nat ->
  forall A okw Inv K, steps (q_model Q) A no_hist okw Inv -> Inv fresh -> NoDup K -> In 0%Z K -> incl A K -> okw 1 ->
  forall ops, lawful (q_model Q) A no_hist okw Inv -> Forall (ok_hop A okw) ops ->
  exists s rs, hexec (fz_update (updF Q fresh D) (Z.of_nat n)) (fz_log_predict (prdF Q fresh D) (Z.of_nat n))
                     (fz_init (qobj_init fresh (Z.of_nat D)) (Z.of_nat n)) ops = Ok (s, rs) /\
    Rsum (map (fun a => match fz_log_predict (prdF Q fresh D) (Z.of_nat n) s a with Ok (_, l) => exp l | Err _ => 0 end) A) = 1.
Proof. exact @fz_ctw_distribution. Qed.
Print Assumptions C97_ctw_distribution.

(** But Factorize(Base, nfactors) does not return the class: it returns the function Factorize itself,
    and calling what it returns to make an object raises TypeError. *)
Theorem C97_factorize_refuted : forall S (fresh : S) nfactors, call0 fresh nfactors factorize = Err TypeError.
Proof. exact fz_not_the_class. Qed.
Print Assumptions C97_factorize_refuted.

(** log_predict_seq of the empty sequence returns 0 but forgets the history. *)
Theorem C97_empty_refuted : forall S (prd : S -> Z -> list Z -> result (S * R)) nfactors s,
  fz_log_predict_seq prd nfactors s [] = (FObj (fo_models s) [] (fo_update_history s) (fo_log_prob s), Ok 0).
Proof. exact fz_empty. Qed.
Print Assumptions C97_empty_refuted.

(** If log_predict_seq raises because log_predict does, the symbols before stay in the history. *)
Theorem C97_failed : forall S (prd : S -> Z -> list Z -> result (S * R)) n, (0 < n)%nat -> forall s seq s' e,
  seq <> [] -> fz_log_predict_seq prd (Z.of_nat n) s seq = (s', Err e) ->
  exists j x, nth_error seq j = Some x /\ fo_history s' = fo_history s ++ firstn j seq /\ fz_log_predict prd (Z.of_nat n) s' x = Err e.
Proof. exact @fz_failed. Qed.
Print Assumptions C97_failed.

Theorem C97_failed_refuted : exists s',
  fz_log_predict_seq (fun s a h => do r <- qkt_log_predict s a h; Ok (s, r)) 2 (fz_init (qkt_init [0; 1]%Z) 2) [0; 5]%Z =
    (s', Err KeyError) /\ fo_history s' = [0]%Z.
Proof. exact fz_left_over. Qed.
Print Assumptions C97_failed_refuted.

(** Three factors of depth 2 over ctw.KT; updates and predictions mixed. *)
Example C97_ex : let ops := [HUpdate 1 1; HPredict 0; HUpdate 0 (/ 2); HPredict 1; HUpdate 0 1; HUpdate 1 1]%Z in
  adds_up QKT_class /\ q_lp QKT_class (qkt_init [0; 1]%Z) = 0 /\ (0 < 2)%nat /\ (0 < 3)%nat /\
  steps (q_model QKT_class) [0; 1]%Z no_hist nonneg (qkt_inv [0; 1]%Z) /\
  lawful (q_model QKT_class) [0; 1]%Z no_hist nonneg (qkt_inv [0; 1]%Z) /\
  qkt_inv [0; 1]%Z (qkt_init [0; 1]%Z) /\ NoDup [0; 1]%Z /\ incl [0; 1]%Z [0; 1]%Z /\ nonneg 1 /\
  Forall (ok_hop [0; 1]%Z nonneg) ops /\
  my_ops 3 0 (with_history [] ops) = [OpUpdate 1 [] 1; OpUpdate 1 [1; 0; 0] 1]%Z /\
  my_ops 3 1 (with_history [] ops) = [OpPredict 0 [1]; OpUpdate 0 [1] (/ 2)]%Z /\
  my_events 3 0 (events_after [] [(1%Z, 1); (0%Z, / 2); (0%Z, 1); (1%Z, 1)]) = [Event 1 [] 1; Event 1 [1; 0; 0] 1]%Z.
Proof.
  intros ops. assert (HA : NoDup [0; 1]%Z) by (repeat constructor; cbn; intuition lia).
  split; [exact qkt_law|]. split; [reflexivity|]. split; [lia|]. split; [lia|]. split; [apply qkt_steps|]. split; [apply qkt_lawful|].
  split; [apply qkt_inv_init; [exact HA|discriminate]|]. split; [exact HA|]. split; [apply incl_refl|].
  split; [unfold nonneg; lra|]. split; [|repeat split; reflexivity].
  unfold ops. repeat apply Forall_cons; try apply Forall_nil; unfold nonneg; cbn; intuition lra.
Qed.
