(** C69: the Averager of learners.py: [log_prob] is the log probability that the uniform mixture of
    its members gives to the sequence; what [log_predict] and [reset] make of it. *)
From Coq Require Import Lra.
From Verif Require Import Model.LearnersAvg Model.LearnersPTW Spec.KTSpec Spec.Prob.
From Verif Require Import Proofs.LearnersAvgFacts Proofs.LearnersKTFacts.
Open Scope R_scope.
Notation no_hist := (fun h : list Z => h = []).
Notation weight_one := (fun w : R => w = 1).

(** The members and their weights go through the states of model.py's Averager, for all members and
    symbols, exceptions included. *)
Theorem C69_same_states : forall S (M : model S) xs s,
  la_run M s xs = do (s', _) <- run (AVG_model M) s (unit_events xs); Ok s'.
Proof. exact @la_run_avg. Qed.
Print Assumptions C69_same_states.

Theorem C69_mixture : forall S (M : model S) A Inv, steps M A no_hist weight_one Inv ->
  forall ms xs, ms <> [] -> NoDup (map fst ms) -> (forall k m, In (k, m) ms -> Inv m) ->
  Forall (fun x => In x A) xs ->
  exists s0 s, la_init ms = Ok s0 /\ la_run M s0 xs = Ok s /\
    exp (av_lp s) = / INR (length ms) * Rsum (map (fun km => seq_prob M (snd km) (unit_events xs)) ms).
Proof. exact @la_mixture. Qed.
Print Assumptions C69_mixture.

Theorem C69_map : forall S (M : model S) A Inv, steps M A no_hist weight_one Inv ->
  forall ms xs, ms <> [] -> NoDup (map fst ms) -> (forall k m, In (k, m) ms -> Inv m) ->
  Forall (fun x => In x A) xs ->
  exists s0 s k m0 m lm ms1 ms2,
    la_init ms = Ok s0 /\ la_run M s0 xs = Ok s /\ la_map s = Ok (k, m) /\
    ms = ms1 ++ (k, m0) :: ms2 /\ run M m0 (unit_events xs) = Ok (m, lm) /\
    (forall km, In km ms -> seq_prob M (snd km) (unit_events xs) <= seq_prob M m0 (unit_events xs)) /\
    (forall km, In km ms1 -> seq_prob M (snd km) (unit_events xs) < seq_prob M m0 (unit_events xs)).
Proof. exact @la_map_best. Qed.
Print Assumptions C69_map.

(** [log_predict] gives the probability of the whole sequence with the symbol after it, not that of
    the symbol given the sequence: the predictions add up to the probability of the sequence. *)
Theorem C69_log_predict_joint : forall S (M : model S) A Inv, steps M A no_hist weight_one Inv ->
  forall ms xs a, ms <> [] -> NoDup (map fst ms) -> (forall k m, In (k, m) ms -> Inv m) ->
  Forall (fun x => In x A) xs -> In a A ->
  exists s0 s l, la_init ms = Ok s0 /\ la_run M s0 xs = Ok s /\ la_log_predict M s a = Ok l /\
    exp l = / INR (length ms) * Rsum (map (fun km => seq_prob M (snd km) (unit_events (xs ++ [a]))) ms).
Proof. exact @la_joint. Qed.
Print Assumptions C69_log_predict_joint.

Theorem C69_predictions_total : forall S (M : model S) A Inv, steps M A no_hist weight_one Inv ->
  forall ms xs, lawful M A no_hist weight_one Inv ->
  ms <> [] -> NoDup (map fst ms) -> (forall k m, In (k, m) ms -> Inv m) -> Forall (fun x => In x A) xs ->
  exists s0 s ls, la_init ms = Ok s0 /\ la_run M s0 xs = Ok s /\
    mapM (la_log_predict M s) A = Ok ls /\ Rsum (map exp ls) = exp (av_lp s).
Proof. exact @la_total. Qed.
Print Assumptions C69_predictions_total.

(** Two KT estimators after one symbol: the predictions add up to one half. *)
Theorem C69_distribution_refuted : exists s0 s ls, la_init two_kts = Ok s0 /\
  la_run LKT_model s0 [0%Z] = Ok s /\ mapM (la_log_predict LKT_model s) [0; 1]%Z = Ok ls /\
  Rsum (map exp ls) = / 2.
Proof. exact la_not_conditional. Qed.
Print Assumptions C69_distribution_refuted.

(** [reset] restores the weights; the members keep what they learned. What follows is scored by the
    mixture of their conditional probabilities given the symbols before the reset. *)
Theorem C69_reset : forall S (M : model S) A Inv, steps M A no_hist weight_one Inv ->
  forall ms xs ys, ms <> [] -> NoDup (map fst ms) -> (forall k m, In (k, m) ms -> Inv m) ->
  Forall (fun x => In x A) xs -> Forall (fun x => In x A) ys ->
  exists s0 s s1 s2, la_init ms = Ok s0 /\ la_run M s0 xs = Ok s /\
    la_reset s = Ok s1 /\ la_run M s1 ys = Ok s2 /\
    exp (av_lp s2) = / INR (length ms) *
      Rsum (map (fun km => seq_prob M (snd km) (unit_events (xs ++ ys)) /
                           seq_prob M (snd km) (unit_events xs)) ms).
Proof. exact @la_after_reset. Qed.
Print Assumptions C69_reset.

Theorem C69_reset_refuted : exists s0 s s1 s2, la_init two_kts = Ok s0 /\
  la_run LKT_model s0 [0%Z] = Ok s /\ exp (av_lp s) = / 2 /\
  la_reset s = Ok s1 /\ la_run LKT_model s1 [0%Z] = Ok s2 /\ exp (av_lp s2) = 3 / 4.
Proof. exact la_reset_keeps. Qed.
Print Assumptions C69_reset_refuted.

(** Two KT estimators of learners.py are such members. *)
Example C69_ex : lawful LKT_model [0; 1]%Z no_hist weight_one (lkt_inv [0; 1]%Z) /\
  steps LKT_model [0; 1]%Z no_hist weight_one (lkt_inv [0; 1]%Z) /\
  two_kts <> [] /\ NoDup (map fst two_kts) /\ (forall k m, In (k, m) two_kts -> lkt_inv [0; 1]%Z m) /\
  Forall (fun x => In x [0; 1]%Z) [0; 1; 1]%Z.
Proof.
  split; [apply lkt_lawful|]. split; [apply lkt_steps|]. destruct two_kts_ok as (H1 & H2 & H3).
  split; [exact H1|]. split; [exact H2|]. split; [exact H3|].
  apply Forall_forall. intros x [<-|[<-|[<-|[]]]]; cbn; auto.
Qed.
