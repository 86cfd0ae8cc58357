From Coq Require Import Lra Lia R_sqrt.
From Verif Require Import Model.KT Spec.Prob Spec.KTSpec.
From Verif Require Import Proofs.RealFacts Proofs.PyFacts Proofs.ProbFacts Proofs.KTFacts Proofs.LnBounds.
Open Scope R_scope.

(** ** The analytic step *)
Lemma pow_exp_ln x n : 0 < x -> x ^ n = exp (INR n * ln x).
Proof. intros H. rewrite <- (Rpower_pow n x H). reflexivity. Qed.

Lemma exp_le_mono a b : a <= b -> exp a <= exp b.
Proof. intros [H| ->]; [left; apply exp_increasing; exact H|right; reflexivity]. Qed.

Lemma ln_le x y : 0 < x -> x <= y -> ln x <= ln y.
Proof. intros H [H1| ->]; [left; apply ln_increasing; assumption|right; reflexivity]. Qed.

Lemma step_upper (a : nat) : INR (S a) ^ (S a) <= exp 1 * INR a ^ a * (INR a + / 2).
Proof.
  destruct a as [|a].
  - cbn. pose proof (exp_ineq1 1 ltac:(lra)). lra.
  - set (x := INR (S a)). assert (Hx: 0 < x) by (apply lt_0_INR; lia).
    assert (Hs: INR (S (S a)) = x + 1) by (rewrite (S_INR (S a)); reflexivity).
    rewrite Hs. rewrite !pow_exp_ln by lra. rewrite Hs. fold x.
    rewrite <- (exp_ln (x + / 2)) by lra. rewrite <- !exp_plus.
    apply exp_le_mono. pose proof (ln_succ_upper x Hx). lra.
Qed.

Lemma half_ln_sqrt x : 0 < x -> ln (sqrt x) = / 2 * ln x.
Proof.
  intros H. pose proof (sqrt_lt_R0 x H) as Hs.
  assert (ln x = ln (sqrt x) + ln (sqrt x)).
  { rewrite <- ln_mult by assumption. rewrite sqrt_sqrt by lra. reflexivity. }
  lra.
Qed.

Lemma step_lower (n : nat) : (0 < n)%nat ->
  exp 1 * INR n ^ n * sqrt (INR n) <= INR (S n) ^ n * sqrt (INR (S n)).
Proof.
  intros Hn. set (x := INR n). assert (Hx: 0 < x) by (apply lt_0_INR; exact Hn).
  rewrite S_INR. fold x. rewrite !pow_exp_ln by lra. fold x.
  rewrite <- (exp_ln (sqrt x)) by (apply sqrt_lt_R0; lra).
  rewrite <- (exp_ln (sqrt (x + 1))) by (apply sqrt_lt_R0; lra).
  rewrite !half_ln_sqrt by lra. rewrite <- !exp_plus. apply exp_le_mono.
  pose proof (ln_succ_lower x Hx). lra.
Qed.

(** the lower bound on the block probability with [a] zeros and [b] ones *)
Definition LB (a b : nat) : R :=
  INR a ^ a * INR b ^ b / (INR (a + b) ^ (a + b)) / (2 * sqrt (INR (a + b))).

Lemma pow_INR_pos n : 0 < INR n ^ n.
Proof. destruct n as [|n]; [cbn; lra|]. apply pow_lt. apply lt_0_INR; lia. Qed.

Lemma LB_sym a b : LB a b = LB b a.
Proof. unfold LB. rewrite (Nat.add_comm a b), (Rmult_comm (INR a ^ a)). reflexivity. Qed.

Lemma LB_step a b : (0 < a + b)%nat ->
  LB (S a) b <= LB a b * ((/ 2 + INR a) / (1 + INR (a + b))).
Proof.
  intros Hn. unfold LB. cbn [Nat.add]. set (n := (a + b)%nat) in *.
  pose proof (pow_INR_pos a) as HA. pose proof (pow_INR_pos b) as HB. pose proof (pow_INR_pos n) as HN.
  pose proof (pow_INR_pos (S n)) as HSN.
  assert (Hx: 0 < INR n) by (apply lt_0_INR; exact Hn).
  assert (Hsn: 0 < INR (S n)) by (apply lt_0_INR; lia).
  assert (Hq: 0 < sqrt (INR n)) by (apply sqrt_lt_R0; exact Hx).
  assert (Hq1: 0 < sqrt (INR (S n))) by (apply sqrt_lt_R0; exact Hsn).
  pose proof (step_upper a) as HU. pose proof (step_lower n Hn) as HLo.
  replace (1 + INR n) with (INR (S n)) by (rewrite S_INR; lra).
  assert (Ha0: 0 <= INR a) by apply pos_INR.
  pose proof (exp_pos 1) as He.
  (* (a+1)^(a+1) * n^n * sqrt n  <=  a^a (a+1/2) (n+1)^n sqrt (n+1) *)
  assert (Hkey: INR (S a) ^ S a * (INR n ^ n * sqrt (INR n)) <=
                INR a ^ a * (/ 2 + INR a) * (INR (S n) ^ n * sqrt (INR (S n)))).
  { apply Rmult_le_reg_l with (exp 1); [exact He|].
    apply Rle_trans with (INR (S a) ^ S a * (INR (S n) ^ n * sqrt (INR (S n)))).
    - replace (exp 1 * (INR (S a) ^ S a * (INR n ^ n * sqrt (INR n))))
        with (INR (S a) ^ S a * (exp 1 * INR n ^ n * sqrt (INR n))) by ring.
      apply Rmult_le_compat_l; [left; apply pow_INR_pos|exact HLo].
    - replace (exp 1 * (INR a ^ a * (/ 2 + INR a) * (INR (S n) ^ n * sqrt (INR (S n)))))
        with ((exp 1 * INR a ^ a * (INR a + / 2)) * (INR (S n) ^ n * sqrt (INR (S n)))) by ring.
      apply Rmult_le_compat_r; [|exact HU].
      apply Rmult_le_pos; [|lra]. apply pow_le; lra. }
  set (c := INR b ^ b / (INR n ^ n * sqrt (INR n) * (INR (S n) ^ S n * sqrt (INR (S n))) * 2)).
  assert (Hc: 0 < c).
  { unfold c. apply Rdiv_lt_0_compat; [exact HB|].
    apply Rmult_lt_0_compat; [apply Rmult_lt_0_compat; [apply Rmult_lt_0_compat; assumption|apply Rmult_lt_0_compat; assumption]|lra]. }
  apply Rmult_le_compat_l with (r := c) in Hkey; [|lra]. unfold c in Hkey.
  assert (Hpn: 0 < INR (S n) ^ n) by (apply pow_lt; exact Hsn).
  replace (INR (S a) ^ S a * INR b ^ b / INR (S n) ^ S n / (2 * sqrt (INR (S n))))
    with (INR b ^ b / (INR n ^ n * sqrt (INR n) * (INR (S n) ^ S n * sqrt (INR (S n))) * 2) *
          (INR (S a) ^ S a * (INR n ^ n * sqrt (INR n)))).
  2:{ field. repeat split; lra. }
  replace (INR a ^ a * INR b ^ b / INR n ^ n / (2 * sqrt (INR n)) * ((/ 2 + INR a) / INR (S n)))
    with (INR b ^ b / (INR n ^ n * sqrt (INR n) * (INR (S n) ^ S n * sqrt (INR (S n))) * 2) *
          (INR a ^ a * (/ 2 + INR a) * (INR (S n) ^ n * sqrt (INR (S n))))).
  2:{ rewrite <- (tech_pow_Rmult (INR (S n)) n). field. repeat split; lra. }
  exact Hkey.
Qed.

(** ** Best coin in hindsight *)
Lemma pow_le_shift x n c : 0 <= x -> 0 < c -> (n <> 0)%nat ->
  x ^ n <= (INR n / c) ^ n * exp (c * x - INR n).
Proof.
  intros Hx Hc Hn. assert (Hk: 0 < INR n) by (apply lt_0_INR; lia).
  assert (H: c * x / INR n <= exp (c * x / INR n - 1)).
  { pose proof (exp_ineq1_le (c * x / INR n - 1)). lra. }
  assert (H0: 0 <= c * x / INR n).
  { unfold Rdiv. apply Rmult_le_pos; [apply Rmult_le_pos; lra|]. left; apply Rinv_0_lt_compat; exact Hk. }
  pose proof (pow_incr _ _ n (conj H0 H)) as Hp.
  assert (He: exp (c * x / INR n - 1) ^ n = exp (c * x - INR n)).
  { rewrite pow_exp_ln by apply exp_pos. rewrite ln_exp. f_equal. field. lra. }
  rewrite He in Hp. 
  apply Rmult_le_compat_l with (r := (INR n / c) ^ n) in Hp.
  2:{ apply pow_le. left. apply Rdiv_lt_0_compat; lra. }
  rewrite <- Rpow_mult_distr in Hp.
  replace (INR n / c * (c * x / INR n)) with x in Hp by (field; lra). exact Hp.
Qed.

Lemma best_coin a b theta : (0 < a + b)%nat -> 0 <= theta <= 1 ->
  (1 - theta) ^ a * theta ^ b <= INR a ^ a * INR b ^ b / INR (a + b) ^ (a + b).
Proof.
  intros Hn [H0 H1]. set (n := INR (a + b)). assert (Hnp: 0 < n) by (apply lt_0_INR; exact Hn).
  assert (Ha: (1 - theta) ^ a <= (INR a / n) ^ a * exp (n * (1 - theta) - INR a)).
  { destruct a as [|a'].
    - cbn [pow INR]. assert (0 <= n * (1 - theta)) by (apply Rmult_le_pos; lra).
      pose proof (exp_le_mono 0 (n * (1 - theta) - 0) ltac:(lra)) as H2. rewrite exp_0 in H2. lra.
    - apply pow_le_shift; [lra|exact Hnp|lia]. }
  assert (Hb: theta ^ b <= (INR b / n) ^ b * exp (n * theta - INR b)).
  { destruct b as [|b'].
    - cbn [pow INR]. assert (0 <= n * theta) by (apply Rmult_le_pos; lra).
      pose proof (exp_le_mono 0 (n * theta - 0) ltac:(lra)) as H2. rewrite exp_0 in H2. lra.
    - apply pow_le_shift; [lra|exact Hnp|lia]. }
  apply Rle_trans with ((INR a / n) ^ a * exp (n * (1 - theta) - INR a) *
                        ((INR b / n) ^ b * exp (n * theta - INR b))).
  - apply Rmult_le_compat; try assumption; apply pow_le; lra.
  - right.
    assert (He: exp (n * (1 - theta) - INR a) * exp (n * theta - INR b) = 1).
    { rewrite <- exp_plus. replace (n * (1 - theta) - INR a + (n * theta - INR b)) with 0; [apply exp_0|].
      unfold n. rewrite plus_INR. lra. }
    replace ((INR a / n) ^ a * exp (n * (1 - theta) - INR a) * ((INR b / n) ^ b * exp (n * theta - INR b)))
      with ((INR a / n) ^ a * (INR b / n) ^ b * (exp (n * (1 - theta) - INR a) * exp (n * theta - INR b))) by ring.
    rewrite He, Rmult_1_r. unfold Rdiv. rewrite !Rpow_mult_distr. rewrite !pow_inv.
    rewrite pow_add, Rinv_mult. unfold n. ring.
Qed.

(** ** KT on a list of bits *)
Definition bits (xs : list Z) : Prop := Forall (fun x => x = 0%Z \/ x = 1%Z) xs.

Lemma ok_unit_events A xs : Forall (fun x => In x A) xs -> Forall (ok_event A any_hist nonneg) (unit_events xs).
Proof.
  unfold unit_events. rewrite Forall_map. apply Forall_impl. intros x Hx.
  split; [exact Hx|]. split; [exact I|]. cbn [ev_wt]. unfold nonneg. lra.
Qed.

Lemma seen_unit a xs : seen a (unit_events xs) = INR (occ a xs).
Proof.
  induction xs as [|x xs IH] using rev_ind; [reflexivity|].
  unfold unit_events in *. rewrite map_app. cbn [map]. rewrite seen_snoc, IH. cbn [ev_sym ev_wt].
  unfold occ. rewrite count_occ_app, plus_INR. f_equal. cbn [count_occ].
  destruct (Z.eqb_spec x a); destruct (Z.eq_dec x a); try congruence; cbn; lra.
Qed.

Lemma total_unit xs : total (unit_events xs) = INR (length xs).
Proof.
  unfold total, unit_events. rewrite map_map. cbn [ev_wt]. rewrite Rsum_const. lra.
Qed.

Lemma kt_prob_snoc A xs x :
  NoDup A -> A <> [] -> Forall (fun x => In x A) xs -> In x A ->
  seq_prob KT_model (kt_init A) (unit_events (xs ++ [x])) =
  seq_prob KT_model (kt_init A) (unit_events xs) * ((1 / INR (length A) + INR (occ x xs)) / (1 + INR (length xs))).
Proof.
  intros Hnd Hne Hxs Hx.
  destruct (kt_rep_run A (unit_events xs) [] _ (kt_rep_init A Hnd Hne) (ok_unit_events A xs Hxs))
    as (s & l & Hr & Hrep). cbn [app] in Hrep.
  unfold unit_events at 1. rewrite map_app. cbn [map]. fold (unit_events xs).
  rewrite (seq_prob_run_app _ _ _ _ _ _ Hr), (seq_prob_run _ _ _ _ _ Hr). f_equal.
  assert (He: ok_event A any_hist nonneg (Event x [] 1)).
  { split; [exact Hx|]. split; [exact I|]. cbn; unfold nonneg; lra. }
  destruct (kt_rep_step A _ s (Event x [] 1) Hrep He) as (s' & Hu & _).
  cbn [seq_prob ev_sym ev_hist ev_wt KT_model m_update] in *. rewrite Hu.
  unfold kt_spec. rewrite seen_unit, total_unit, exp_ln, Rmult_1_r; [reflexivity|].
  apply Rdiv_lt_0_compat.
  - assert (0 < 1 / INR (length A)).
    { apply Rdiv_lt_0_compat; [lra|]. apply lt_0_INR. destruct A; [congruence|cbn; lia]. }
    pose proof (pos_INR (occ x xs)). lra.
  - pose proof (pos_INR (length xs)). lra.
Qed.

Lemma occ_bits xs : bits xs -> (occ 0 xs + occ 1 xs)%nat = length xs.
Proof.
  unfold bits, occ. induction 1 as [|x xs [->| ->] H IH]; cbn [count_occ length]; [reflexivity| |].
  - destruct (Z.eq_dec 0 0); [|congruence]. destruct (Z.eq_dec 0 1); [discriminate|]. lia.
  - destruct (Z.eq_dec 1 1); [|congruence]. destruct (Z.eq_dec 1 0); [discriminate|]. lia.
Qed.

Lemma kt_block_lower xs : bits xs -> xs <> [] ->
  LB (occ 0 xs) (occ 1 xs) <= seq_prob KT_model (kt_init [0; 1]%Z) (unit_events xs).
Proof.
  assert (Hnd: NoDup [0; 1]%Z). { repeat constructor; cbn; intuition discriminate. }
  assert (HinA: forall x, x = 0%Z \/ x = 1%Z -> In x [0;1]%Z) by (intros x [->| ->]; cbn; auto).
  induction xs as [|x xs IH] using rev_ind; [congruence|]. intros Hb _.
  apply Forall_app in Hb as [Hb Hx]. inversion Hx as [|y l Hx' _]; subst.
  rewrite kt_prob_snoc; [|exact Hnd|discriminate| |apply HinA; exact Hx'].
  2:{ eapply Forall_impl; [|exact Hb]. apply HinA. }
  replace (INR (length [0%Z; 1%Z])) with 2 by (cbn; lra).
  replace (1 / 2) with (/ 2) by lra.
  destruct xs as [|x0 xs'].
  - cbn [app unit_events map seq_prob]. unfold occ; cbn [count_occ length]. cbn [INR].
    unfold LB. destruct Hx' as [->| ->]; cbn; rewrite sqrt_1; lra.
  - set (ys := x0 :: xs') in *. specialize (IH Hb ltac:(discriminate)).
    pose proof (occ_bits ys Hb) as Hlen.
    assert (Hpos: (0 < occ 0 ys + occ 1 ys)%nat) by (rewrite Hlen; cbn; lia).
    unfold occ. rewrite !count_occ_app. fold (occ 0 ys) (occ 1 ys) (occ x ys).
    assert (Hq: 0 <= (/ 2 + INR (occ x ys)) / (1 + INR (length ys))).
    { pose proof (pos_INR (occ x ys)). pose proof (pos_INR (length ys)).
      left. apply Rdiv_lt_0_compat; lra. }
    apply Rmult_le_compat_r with (r := (/ 2 + INR (occ x ys)) / (1 + INR (length ys))) in IH; [|exact Hq].
    eapply Rle_trans; [|exact IH].
    destruct Hx' as [->| ->]; cbn [count_occ].
    + destruct (Z.eq_dec 0 0); [|congruence]. destruct (Z.eq_dec 0 1); [discriminate|].
      rewrite Nat.add_0_r, Nat.add_1_r, <- Hlen. apply LB_step; exact Hpos.
    + destruct (Z.eq_dec 1 1); [|congruence]. destruct (Z.eq_dec 1 0); [discriminate|].
      rewrite Nat.add_0_r, Nat.add_1_r, <- Hlen. rewrite (LB_sym (occ 0 ys)), (LB_sym (occ 0 ys) (occ 1 ys)).
      rewrite (Nat.add_comm (occ 0 ys)). apply LB_step. lia.
Qed.

Lemma kt_redundancy_prob xs theta : bits xs -> xs <> [] -> 0 <= theta <= 1 ->
  coin_prob theta xs / (2 * sqrt (INR (length xs))) <=
  seq_prob KT_model (kt_init [0; 1]%Z) (unit_events xs).
Proof.
  intros Hb Hne Ht. eapply Rle_trans; [|apply kt_block_lower; assumption].
  unfold LB, coin_prob. pose proof (occ_bits xs Hb) as Hlen. rewrite Hlen.
  assert (Hl: (0 < length xs)%nat) by (destruct xs; [congruence|cbn; lia]).
  assert (0 < sqrt (INR (length xs))) by (apply sqrt_lt_R0, lt_0_INR; exact Hl).
  apply Rmult_le_compat_r; [left; apply Rinv_0_lt_compat; lra|].
  rewrite <- Hlen. apply best_coin; [lia|exact Ht].
Qed.

(** In terms of total log loss. *)
Lemma kt_redundancy xs theta s l : bits xs -> xs <> [] -> 0 <= theta <= 1 ->
  run KT_model (kt_init [0; 1]%Z) (unit_events xs) = Ok (s, l) ->
  0 < coin_prob theta xs ->
  - l <= - ln (coin_prob theta xs) + / 2 * ln (INR (length xs)) + ln 2.
Proof.
  intros Hb Hne Ht Hr Hc.
  pose proof (kt_redundancy_prob xs theta Hb Hne Ht) as H.
  rewrite (seq_prob_run _ _ _ _ _ Hr) in H.
  assert (Hl: 0 < INR (length xs)) by (apply lt_0_INR; destruct xs; [congruence|cbn; lia]).
  assert (Hs: 0 < sqrt (INR (length xs))) by (apply sqrt_lt_R0; exact Hl).
  assert (Hpos: 0 < coin_prob theta xs / (2 * sqrt (INR (length xs)))) by (apply Rdiv_lt_0_compat; lra).
  apply (ln_le _ _ Hpos) in H.
  rewrite ln_exp, ln_div, ln_mult, half_ln_sqrt in H by lra. lra.
Qed.
