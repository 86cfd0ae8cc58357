(** C98: numerical helpers of utilities.py and ctw.py. [f] is numpy's log2 on integers, which rounds;
    [cut n i] is entry i of linspace(0, 100, n+1) as integers; [pick] is the random draw. *)
From Coq Require Import Lra Lia.
From Verif Require Import Model.NumUtils Spec.NumSpec Proofs.NumUtilsFacts Proofs.BinFacts Proofs.NearestFacts.
Open Scope R_scope.

(** With log2 rounded to nearest, mscb is the highest bit that changes, for t below 2^46 - 1. *)
Theorem C98_mscb : forall f t, log2_nearest f -> (0 <= t < 2 ^ 46 - 1)%Z -> changes_up_to t (u_mscb f t).
Proof. exact mscb_below_changes. Qed.
Print Assumptions C98_mscb.

(** With relative error u of log2 it is right for all t whose bit m has (m+1) 2^(m+1) u < 1. *)
Theorem C98_mscb_error : forall u f t m, (0 <= t)%Z -> 0 <= u <= / 4 -> log2_within u f -> changes_up_to t m ->
  IZR (m + 1) * IZR (2 ^ (m + 1)) * u < 1 -> u_mscb f t = m.
Proof. exact mscb_within_changes. Qed.
Print Assumptions C98_mscb_error.
Example C98_nearest_case : exists f, log2_nearest f.
Proof. exists log2_rounded. exact rounded_nearest. Qed.
Example C98_mscb_case : log2_within 0 (fun z => Rlog2 (IZR z)) /\ changes_up_to 7 3 /\ changes_up_to 8 0.
Proof.
  split; [intros x Hx; unfold Rminus; rewrite Rplus_opp_r, Rabs_R0; lra|].
  split; (split; [lia|split; [|intros [q Hq]; cbn in Hq; lia]]); [exists 1%Z|exists 9%Z]; reflexivity.
Qed.

(** Not for all t: for 2^48 - 1, log2 (2^49 - 1) rounds to 49, and mscb says 49 instead of 48. *)
Theorem C98_mscb_refuted : forall f, log2_nearest f -> u_mscb f (2 ^ 48 - 1) = 49%Z /\ changes_up_to (2 ^ 48 - 1) 48.
Proof. exact mscb_wrong. Qed.
Print Assumptions C98_mscb_refuted.

(** Both log-sum-exps are the logarithm of the sum of the exponentials; both raise for no values. *)
Theorem C98_log_sum_exp : forall v, v <> [] ->
  u_log_sum_exp v = Ok (ln (Rsum (map exp v))) /\ ctw_logsumexp v = Ok (ln (Rsum (map exp v))).
Proof. exact both_lse. Qed.
Print Assumptions C98_log_sum_exp.
Theorem C98_log_sum_exp_empty : u_log_sum_exp [] = Err ValueError /\ ctw_logsumexp [] = Err ValueError.
Proof. exact lse_empty. Qed.
Print Assumptions C98_log_sum_exp_empty.
Example C98_log_sum_exp_case : u_log_sum_exp [0; 0] = Ok (ln 2).
Proof.
  rewrite (proj1 (C98_log_sum_exp [0; 0] ltac:(discriminate))). f_equal. f_equal. unfold Rsum. cbn [map fold_left]. rewrite exp_0. lra.
Qed.

(** argmax: whatever is drawn, an index of a largest value; every such index can be drawn. *)
Theorem C98_argmax : forall values pick, values <> [] ->
  exists i x, u_argmax values pick = Ok i /\ nth_error values i = Some x /\ forall y, In y values -> y <= x.
Proof. exact argmax_ok. Qed.
Print Assumptions C98_argmax.
Theorem C98_argmax_any : forall values i x, nth_error values i = Some x -> (forall y, In y values -> y <= x) ->
  exists pick, u_argmax values pick = Ok i.
Proof. exact argmax_any. Qed.
Print Assumptions C98_argmax_any.
Example C98_argmax_case : exists pick, u_argmax [0; 1; 1] pick = Ok 2%nat.
Proof. apply (C98_argmax_any _ _ 1); [reflexivity|]. cbn. intros y [<-|[<-|[<-|[]]]]; lra. Qed.

(** bin_data on 100 values and 1 to 50 bins: the means of consecutive parts, none of them empty, of
    nearly the same length. *)
Theorem C98_bins_partial : forall cut n data, cuts_ok n (cut n) -> (1 <= n <= 50)%Z -> length data = 100%nat ->
  exists ps, bin_data cut data n = Ok (map (fun p => Some (mean p)) ps) /\ concat ps = data /\ length ps = Z.to_nat n /\
    Forall (fun p => p <> []) ps /\ Forall (fun p => Z.abs (Z.of_nat (length p) * n - 100) <= 2 * n)%Z ps.
Proof. exact bins_ok. Qed.
Print Assumptions C98_bins_partial.
Example C98_bins_case : forall n, (1 <= n)%Z -> cuts_ok n (fun i => 100 * i / n)%Z.
Proof. exact floor_cuts. Qed.

(** Not for other numbers of values: with 200 ones the one bin is 2. *)
Theorem C98_long_refuted : forall cut, cuts_ok 1 (cut 1%Z) -> bin_data cut (repeat 1 200) 1 = Ok [Some 2].
Proof. exact bins_long. Qed.
Print Assumptions C98_long_refuted.

(** Too few values raise; in particular fewer than 50 with two bins. *)
Theorem C98_short_refuted : forall cut n data, cuts_ok n (cut n) -> (1 <= n)%Z -> (Z.of_nat (length data) <= cut n (n - 1))%Z ->
  bin_data cut data n = Err IndexError.
Proof. exact bins_short. Qed.
Print Assumptions C98_short_refuted.
Example C98_short_case : bin_data (fun n i => 100 * i / n)%Z [1; 2; 3; 4] 2 = Err IndexError.
Proof. apply C98_short_refuted; [apply floor_cuts; lia|lia|cbn; lia]. Qed.

(** More than 100 bins: some quotient is by zero, even with 100 values. *)
Theorem C98_many_refuted : forall cut n data, cuts_ok n (cut n) -> (100 < n)%Z -> length data = 100%nat ->
  exists vs, bin_data cut data n = Ok vs /\ In None vs.
Proof. exact bins_many. Qed.
Print Assumptions C98_many_refuted.
Theorem C98_no_bins : forall cut data, bin_data cut data 0 = Ok [] /\ forall n, (n < -1)%Z -> bin_data cut data n = Err ValueError.
Proof. exact bins_none_negative. Qed.
Print Assumptions C98_no_bins.

(** get_bin_index raises whatever it is given. *)
Theorem C98_bin_index_refuted : forall signal bins, get_bin_index signal bins = Err NameError.
Proof. exact bin_index_raises. Qed.
Print Assumptions C98_bin_index_refuted.
