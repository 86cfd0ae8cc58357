(** C102: the accounts and predictions of the models of learners.py; what reset and from_sequence do. *)
From Coq Require Import Lra Lia.
From Verif Require Import Spec.LearnersBaseSpec Proofs.LearnersKTFacts Proofs.LearnersAvgFacts Proofs.LearnersBaseFacts.
Open Scope R_scope.

(** total_loss is what the updates returned, negated; it is the loss of the sequence under additive smoothing. *)
Theorem C102_kt_account : forall A xs, NoDup A -> A <> [] -> Forall (fun x => In x A) xs ->
  exists s l, run LKT_model (lkt_init A) (unit_events xs) = Ok (s, l) /\ total_loss lk_lp s = - l /\
    exp (- total_loss lk_lp s) = seq_of (kt_spec A) [] xs.
Proof. exact kt_account. Qed.
Print Assumptions C102_kt_account.

Theorem C102_kt_predict : forall A xs a, NoDup A -> A <> [] -> Forall (fun x => In x A) xs -> In a A ->
  exists s l, run LKT_model (lkt_init A) (unit_events xs) = Ok (s, l) /\
    lm_predict LKT_model s a = Ok (kt_spec A (unit_events xs) a).
Proof. exact kt_predict. Qed.
Print Assumptions C102_kt_predict.

(** After reset, a KT answers everything as a new one. *)
Theorem C102_kt_reset : forall A s evs, run LKT_model (lkt_reset A s) evs = run LKT_model (lkt_init A) evs.
Proof. exact kt_reset. Qed.
Print Assumptions C102_kt_reset.

Example C102_kt_ex : NoDup [0; 1; 7]%Z /\ [0; 1; 7]%Z <> [] /\ Forall (fun x => In x [0; 1; 7]%Z) [7; 0; 7]%Z /\ In 1%Z [0; 1; 7]%Z.
Proof. repeat apply conj; [repeat constructor; cbn; intuition lia|discriminate|repeat constructor; cbn; tauto|cbn; tauto]. Qed.

(** PTW: the loss is that of the recursion over segments, and predictions are those of a distribution. *)
Theorem C102_ptw_account : forall S (M : model S) fresh A Inv,
  lawful M A (fun h => h = []) (fun w => w = 1) Inv -> Inv fresh ->
  forall D xs, Forall (fun x => In x A) xs -> (length xs <= 2 ^ D)%nat ->
  exists s l, run (LPTW_model M fresh) (lptw_init fresh D) (unit_events xs) = Ok (s, l) /\ total_loss lw_lp s = - l /\
    exp (- total_loss lw_lp s) = ptw_prob M (fun _ => fresh) 0 D 0 (unit_events xs).
Proof. exact @ptw_account. Qed.
Print Assumptions C102_ptw_account.

Theorem C102_ptw_predict : forall S (M : model S) fresh A Inv,
  lawful M A (fun h => h = []) (fun w => w = 1) Inv -> Inv fresh ->
  forall D xs a, Forall (fun x => In x A) xs -> In a A -> (length xs < 2 ^ D)%nat ->
  exists s l, run (LPTW_model M fresh) (lptw_init fresh D) (unit_events xs) = Ok (s, l) /\
    lm_predict (LPTW_model M fresh) s a =
      Ok (ptw_prob M (fun _ => fresh) 0 D 0 (unit_events (xs ++ [a])) / ptw_prob M (fun _ => fresh) 0 D 0 (unit_events xs)).
Proof. exact @ptw_ratio. Qed.
Print Assumptions C102_ptw_predict.

Theorem C102_ptw_distribution : forall S (M : model S) fresh A Inv,
  lawful M A (fun h => h = []) (fun w => w = 1) Inv -> Inv fresh ->
  forall D xs, Forall (fun x => In x A) xs -> (length xs < 2 ^ D)%nat ->
  exists s l, run (LPTW_model M fresh) (lptw_init fresh D) (unit_events xs) = Ok (s, l) /\
    exists ps, mapM (lm_predict (LPTW_model M fresh) s) A = Ok ps /\ Forall (fun p => 0 < p) ps /\ Rsum ps = 1.
Proof. exact @ptw_sum. Qed.
Print Assumptions C102_ptw_distribution.

Example C102_ptw_ex : lawful LKT_model [0; 1]%Z (fun h => h = []) (fun w => w = 1) (lkt_inv [0; 1]%Z) /\
  lkt_inv [0; 1]%Z (lkt_init [0; 1]%Z) /\ Forall (fun x => In x [0; 1]%Z) [1; 1; 0; 1; 1]%Z /\ (5 < 2 ^ 3)%nat.
Proof.
  repeat apply conj; [apply lkt_lawful| |repeat constructor; cbn; tauto|cbn; lia].
  apply lkt_inv_init; [repeat constructor; cbn; intuition lia|discriminate].
Qed.

(** reset does not wipe a PTW: update(a), reset, update(a) returns less than a new PTW does, over any model that is not certain of a. *)
Theorem C102_ptw_reset_refuted : forall S (M : model S) fresh D a f l, (1 <= D)%nat -> m_update M fresh a [] 1 = Ok (f, l) ->
  exists s1 l1 s2 l2, lptw_update M fresh (lptw_init fresh D) a [] 1 = Ok (s1, l1) /\ l1 = l /\
    lptw_update M fresh (lptw_reset s1) a [] 1 = Ok (s2, l2) /\
    exp l2 = exp l - (exp l - exp l * exp l) / 2 ^ D.
Proof. exact @stale. Qed.
Print Assumptions C102_ptw_reset_refuted.

(** KT gives the first symbol 1/2: with depth 1, 3/8 after reset. *)
Example C102_ptw_reset_ex : exists f l, m_update LKT_model (lkt_init [0; 1]%Z) 0%Z [] 1 = Ok (f, l) /\ exp l = / 2.
Proof.
  destruct (C102_kt_account [0; 1]%Z [0%Z]) as (s & l & Hr & Hl & He).
  - repeat constructor; cbn; intuition lia.
  - discriminate.
  - repeat constructor; cbn; tauto.
  - cbn [unit_events map run ev_sym ev_hist ev_wt] in Hr. destruct (m_update LKT_model (lkt_init [0; 1]%Z) 0%Z [] 1) as [[f l0]|]; cbn [bind] in Hr; [|discriminate].
    injection Hr as <- <-. exists f, l0. split; [reflexivity|]. rewrite Hl in He. rewrite Ropp_involutive, Rplus_0_r in He. rewrite He.
    cbn [seq_of]. unfold kt_spec, seen, total, Rsum. cbn. lra.
Qed.

(** from_sequence raises for all models that can be made, *)
Theorem C102_from_sequence_refuted : forall S (M : model S) me seq, from_sequence M (Ok me) seq = Err NameError.
Proof. exact @no_sequence_ok. Qed.
Print Assumptions C102_from_sequence_refuted.

(** and SAD can be neither updated nor asked, whatever attributes it is given. *)
Theorem C102_sad_refuted : forall self symbol,
  lsad_update self symbol = Err NameError /\ (forall v, lsad_log_predict self symbol <> Ok v) /\
  forall n, lsad_log_predict (lsad_init n) symbol = Err AttributeError.
Proof. exact sad_unusable. Qed.
Print Assumptions C102_sad_refuted.
