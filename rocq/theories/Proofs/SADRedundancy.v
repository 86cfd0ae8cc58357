(** The loss of SAD against every memoryless source. *)
From Coq Require Import Lra Lia.
From Verif Require Import Model.KT Spec.MemorylessSpec Proofs.RealFacts Proofs.PyFacts Proofs.ProbFacts Proofs.KTFacts Proofs.KTRedundancy Proofs.SADFacts Proofs.SADClosed Proofs.TypesFacts.
Open Scope R_scope.

Definition bet (t m : nat) : R := INR m / (2 * ln ((INR t + 1) / INR m)).

Lemma syms_unit xs : map ev_sym (unit_events xs) = xs.
Proof. unfold unit_events. rewrite map_map. apply map_id. Qed.
Lemma distinct_unit xs : distinct (unit_events xs) = used xs.
Proof. unfold distinct, used. now rewrite syms_unit. Qed.

Lemma escape_unit xs : xs <> [] -> escape (unit_events xs) = bet (length xs) (used xs).
Proof.
  intros Hne. unfold escape. rewrite distinct_unit, total_unit, Rmin_left by (apply le_INR, used_le).
  destruct xs as [|x xs]; [congruence|]. reflexivity.
Qed.

Lemma sad_prob_snoc A xs x : NoDup A -> Forall (fun x => In x A) xs -> In x A ->
  0 < sad_spec (length A) (unit_events xs) x /\
  seq_prob SAD_model (sad_init (Z.of_nat (length A))) (unit_events (xs ++ [x])) =
  seq_prob SAD_model (sad_init (Z.of_nat (length A))) (unit_events xs) * sad_spec (length A) (unit_events xs) x.
Proof.
  intros HA Hx Hin.
  assert (Hev : Forall (fun e => In (ev_sym e) A /\ 0 < ev_wt e) (unit_events xs)).
  { unfold unit_events. rewrite Forall_map. eapply Forall_impl; [|exact Hx]. cbn. intros a Ha. split; [exact Ha|lra]. }
  destruct (sad_closed_form A (unit_events xs) x [] HA Hev Hin) as (s & l & Hr & Hp & Hpos). split; [exact Hpos|].
  unfold unit_events at 1. rewrite map_app. cbn [map]. fold (unit_events xs).
  rewrite (seq_prob_run_app _ _ _ _ _ _ Hr), (seq_prob_run _ _ _ _ _ Hr). f_equal.
  cbn [seq_prob ev_sym ev_hist ev_wt SAD_model m_update]. unfold sad_update. rewrite Hp. cbn [bind]. rewrite exp_ln by exact Hpos. lra.
Qed.

(** ** The escape weight *)
Lemma ln_ge_inv y : 0 < y -> 1 - / y <= ln y.
Proof. intros Hy. pose proof (ln_minus1 (/ y) ltac:(now apply Rinv_0_lt_compat)) as H. rewrite ln_Rinv in H by exact Hy. lra. Qed.

Section beta.
  Variables (t m : nat).
  Hypothesis Hm : (1 <= m <= t)%nat.
  Lemma Hm1 : 1 <= INR m. Proof. apply (le_INR 1). lia. Qed.
  Lemma Hmt : INR m <= INR t. Proof. apply le_INR. lia. Qed.
  Lemma ratio_gt1 : 1 < (INR t + 1) / INR m.
  Proof. pose proof Hm1. pose proof Hmt. apply (Rmult_lt_reg_r (INR m)); [lra|]. unfold Rdiv. rewrite Rmult_assoc, Rinv_l by lra. lra. Qed.
  Lemma ratio_ln : (INR t + 1 - INR m) / (INR t + 1) <= ln ((INR t + 1) / INR m).
  Proof.
    pose proof Hm1. pose proof Hmt. pose proof ratio_gt1 as G. pose proof (ln_ge_inv ((INR t + 1) / INR m) ltac:(lra)) as H1.
    eapply Rle_trans; [|exact H1]. right. field. lra.
  Qed.
  Lemma ratio_ln_pos : 0 < ln ((INR t + 1) / INR m).
  Proof. rewrite <- ln_1. apply ln_increasing; [lra|apply ratio_gt1]. Qed.
  Lemma bet_pos : 0 < bet t m.
  Proof. pose proof Hm1. pose proof ratio_ln_pos. unfold bet. apply Rdiv_lt_0_compat; lra. Qed.
  Lemma bet_over : INR t + bet t m <= INR t * (INR t + 1) / (INR t + 1 - INR m).
  Proof.
    pose proof Hm1 as H1. pose proof Hmt as H2. pose proof ratio_ln as H3. pose proof ratio_ln_pos as H4. unfold bet.
    set (x := INR m) in *. set (y := INR t) in *. set (L := ln ((y + 1) / x)) in *. clearbody L x y.
    assert (P : 0 < (y + 1 - x) / (y + 1)) by (apply Rdiv_lt_0_compat; lra).
    assert (B : x / (2 * L) <= x * y / (y + 1 - x)).
    { apply Rle_trans with (x / (2 * ((y + 1 - x) / (y + 1)))).
      - unfold Rdiv at 1 2. apply Rmult_le_compat_l; [lra|]. apply Rinv_le_contravar; lra.
      - replace (x / (2 * ((y + 1 - x) / (y + 1)))) with (x * ((y + 1) / 2) / (y + 1 - x)) by (field; lra).
        unfold Rdiv at 1 3. apply Rmult_le_compat_r; [left; apply Rinv_0_lt_compat; lra|]. apply Rmult_le_compat_l; lra. }
    replace (y * (y + 1) / (y + 1 - x)) with (y + x * y / (y + 1 - x)) by (field; lra). lra.
  Qed.
End beta.

Lemma bet_mono t m m' : (1 <= m <= m')%nat -> (m' <= t)%nat -> bet t m <= bet t m'.
Proof.
  intros H1 H2. unfold bet. pose proof (ratio_ln_pos t m ltac:(lia)) as P1. pose proof (ratio_ln_pos t m' ltac:(lia)) as P2.
  pose proof (Hm1 t m ltac:(lia)) as Q. assert (INR m <= INR m') by (apply le_INR; lia). pose proof (pos_INR t).
  assert (G : ln ((INR t + 1) / INR m') <= ln ((INR t + 1) / INR m)).
  { apply ln_le; [apply Rdiv_lt_0_compat; lra|]. unfold Rdiv. apply Rmult_le_compat_l; [lra|]. apply Rinv_le_contravar; lra. }
  set (a := ln ((INR t + 1) / INR m')) in *. set (b := ln ((INR t + 1) / INR m)) in *. clearbody a b.
  apply Rle_trans with (INR m / (2 * a)).
  - unfold Rdiv. apply Rmult_le_compat_l; [lra|]. apply Rinv_le_contravar; lra.
  - unfold Rdiv. apply Rmult_le_compat_r; [left; apply Rinv_0_lt_compat; lra|lra].
Qed.

(** ** The denominators *)
Definition B (M s : nat) : R := match s with 0%nat => 0 | S _ => ln (INR s + bet s (Nat.min s M)) end.
Fixpoint Bsum (M n : nat) : R := match n with 0%nat => 0 | S s => Bsum M s + B M s end.

Lemma Bsum_fact M n : (1 <= M)%nat -> (1 <= n)%nat -> Bsum M n <= lnf (n - 1) + lnf n - lnf (n - M).
Proof.
  intros HM. induction n as [|n IH]; [lia|]. intros _. destruct (Nat.eq_dec n 0) as [->|Hn].
  - cbn [Bsum B]. replace (1 - M)%nat with 0%nat by lia. change (1 - 1)%nat with 0%nat. rewrite lnf_0, lnf_1. lra.
  - specialize (IH ltac:(lia)). cbn [Bsum]. replace (S n - 1)%nat with (S (n - 1)) by lia. rewrite !lnf_S. replace (S (n - 1)) with n by lia.
    assert (HB : B M n <= ln (INR n) + ln (INR n + 1) - ln (INR n + 1 - INR (Nat.min n M))).
    { unfold B. destruct n as [|n']; [lia|]. set (k := S n') in *. pose proof (bet_over k (Nat.min k M) ltac:(lia)) as G.
      pose proof (Hmt k (Nat.min k M) ltac:(lia)) as G2. pose proof (bet_pos k (Nat.min k M) ltac:(lia)) as G3. assert (0 < INR k) by (apply lt_0_INR; lia).
      apply ln_le in G; [|lra]. eapply Rle_trans; [exact G|]. unfold Rdiv. assert (0 < / (INR k + 1 - INR (Nat.min k M))) by (apply Rinv_0_lt_compat; lra).
      rewrite !ln_mult, ln_Rinv by nra. lra. }
    rewrite S_INR. destruct (le_lt_dec M n) as [Hle|Hlt].
    + replace (S n - M)%nat with (S (n - M)) by lia. rewrite lnf_S. rewrite Nat.min_r in HB by lia.
      replace (INR (S (n - M))) with (INR n + 1 - INR M) by (rewrite S_INR, minus_INR by lia; lra). lra.
    + replace (S n - M)%nat with 0%nat by lia. replace (n - M)%nat with 0%nat in IH by lia. rewrite Nat.min_l in HB by lia.
      replace (INR n + 1 - INR n) with 1 in HB by lra. rewrite ln_1 in HB. rewrite lnf_0 in *. lra.
Qed.

Lemma central M : lnf (2 * M + 1) <= lnf M + lnf (M + 1) + INR (2 * M + 1) * ln 2.
Proof.
  induction M as [|M IH].
  - change (2 * 0 + 1)%nat with 1%nat. change (0 + 1)%nat with 1%nat. rewrite lnf_0, lnf_1. cbn [INR]. pose proof ln_lt_2. assert (0 < ln 2) by (rewrite <- ln_1; apply ln_increasing; lra). lra.
  - replace (2 * S M + 1)%nat with (S (S (2 * M + 1))) by lia. replace (S M + 1)%nat with (S (M + 1)) by lia. rewrite !lnf_S.
    assert (E : INR (S (S (2 * M + 1))) = INR (2 * M + 1) + 2) by (rewrite !S_INR; lra). rewrite E.
    assert (G : ln (INR (S (2 * M + 1))) + ln (INR (2 * M + 1) + 2) <= ln (INR (S M)) + ln (INR (S (M + 1))) + 2 * ln 2).
    { replace (2 * ln 2) with (ln 2 + ln 2) by lra. pose proof (pos_INR M).
      assert (E1 : INR (S (2 * M + 1)) = 2 * (INR M + 1)) by (rewrite S_INR, plus_INR, mult_INR; cbn; lra).
      assert (E2 : INR (2 * M + 1) + 2 = 2 * INR M + 3) by (rewrite plus_INR, mult_INR; cbn; lra).
      assert (E3 : INR (S M) = INR M + 1) by apply S_INR. assert (E4 : INR (S (M + 1)) = INR M + 2) by (rewrite S_INR, plus_INR; cbn; lra).
      rewrite E1, E2, E3, E4. rewrite ln_mult by lra. assert (ln (2 * INR M + 3) <= ln (2 * (INR M + 2))) by (apply ln_le; lra).
      rewrite (ln_mult 2 (INR M + 2)) in * by lra. lra. }
    lra.
Qed.

Lemma lnln_step x M : 0 < M -> 1 < (x - 1) / M -> 0 < x - 1 ->
  / (x * ln (x / M)) <= ln (ln (x / M)) - ln (ln ((x - 1) / M)).
Proof.
  intros HM H1 Hx. set (a := ln ((x - 1) / M)). set (b := ln (x / M)).
  assert (Ha : 0 < a) by (unfold a; rewrite <- ln_1; apply ln_increasing; lra).
  assert (E : b - a = ln x - ln (x - 1)).
  { unfold a, b, Rdiv. assert (0 < / M) by now apply Rinv_0_lt_compat. rewrite !ln_mult by lra. lra. }
  assert (G : / x <= b - a).
  { rewrite E. pose proof (ln_ge_inv (x * / (x - 1))) as G. assert (0 < / (x - 1)) by now apply Rinv_0_lt_compat. specialize (G ltac:(apply Rmult_lt_0_compat; lra)).
    rewrite ln_mult, ln_Rinv in G by lra. replace (1 - / (x * / (x - 1))) with (/ x) in G by (field; lra). lra. }
  assert (Hx0 : 0 < / x) by (apply Rinv_0_lt_compat; lra). assert (Hb : 0 < b) by lra. clearbody a b.
  pose proof (ln_ge_inv (b * / a)) as L. assert (0 < / a) by now apply Rinv_0_lt_compat. specialize (L ltac:(apply Rmult_lt_0_compat; lra)).
  rewrite ln_mult, ln_Rinv in L by lra. replace (1 - / (b * / a)) with ((b - a) * / b) in L by (field; lra).
  rewrite Rinv_mult. assert (0 < / b) by now apply Rinv_0_lt_compat. nra.
Qed.

Lemma Bsum_tail M n : (1 <= M)%nat -> (2 * M + 1 <= n)%nat ->
  Bsum M n <= lnf (n - 1) + lnf (2 * M + 1) - lnf (M + 1) + INR M / 2 * (ln (ln ((INR n - 1) / INR M)) - ln (ln 2)).
Proof.
  intros HM Hn. assert (HM1 : 1 <= INR M) by (apply (le_INR 1); lia). induction Hn as [|n Hn IH].
  - pose proof (Bsum_fact M (2 * M + 1) HM ltac:(lia)) as H. replace (2 * M + 1 - M)%nat with (M + 1)%nat in H by lia.
    replace ((INR (2 * M + 1) - 1) / INR M) with 2 by (rewrite plus_INR, mult_INR; cbn [INR]; field; lra). lra.
  - cbn [Bsum]. replace (S n - 1)%nat with (S (n - 1)) by lia. rewrite (lnf_S (n - 1)). replace (S (n - 1)) with n by lia.
    rewrite S_INR. replace (INR n + 1 - 1) with (INR n) by lra.
    assert (Hx : 2 * INR M + 1 <= INR n) by (apply le_INR in Hn; rewrite plus_INR, mult_INR in Hn; cbn in Hn; lra).
    assert (R1 : 1 < (INR n - 1) / INR M).
    { apply (Rmult_lt_reg_r (INR M)); [lra|]. unfold Rdiv. rewrite Rmult_assoc, Rinv_l by lra. lra. }
    pose proof (lnln_step (INR n) (INR M) ltac:(lra) R1 ltac:(lra)) as G.
    assert (HB : B M n <= ln (INR n) + INR M / 2 * / (INR n * ln (INR n / INR M))).
    { destruct n as [|n']; [lia|]. unfold B. set (k := S n') in *. rewrite Nat.min_r by lia. pose proof (bet_pos k M ltac:(lia)) as Bp.
      assert (Hk : 0 < INR k) by lra. replace (INR k + bet k M) with (INR k * (1 + bet k M / INR k)) by (field; lra).
      assert (Q : 0 < bet k M / INR k) by now apply Rdiv_lt_0_compat.
      rewrite ln_mult by lra. apply Rplus_le_compat_l. eapply Rle_trans; [apply ln_minus1; lra|].
      replace (1 + bet k M / INR k - 1) with (bet k M / INR k) by lra. unfold bet.
      assert (L1 : 0 < ln (INR k / INR M)).
      { rewrite <- ln_1. apply ln_increasing; [lra|]. apply (Rmult_lt_reg_r (INR M)); [lra|]. unfold Rdiv. rewrite Rmult_assoc, Rinv_l by lra. lra. }
      assert (L2 : ln (INR k / INR M) <= ln ((INR k + 1) / INR M)).
      { apply ln_le; [apply Rdiv_lt_0_compat; lra|]. unfold Rdiv. apply Rmult_le_compat_r; [left; apply Rinv_0_lt_compat; lra|lra]. }
      set (a := ln (INR k / INR M)) in *. set (b := ln ((INR k + 1) / INR M)) in *. clearbody a b.
      replace (INR M / (2 * b) / INR k) with (INR M / 2 * / INR k * / b) by (field; lra).
      replace (INR M / 2 * / (INR k * a)) with (INR M / 2 * / INR k * / a) by (field; lra).
      apply Rmult_le_compat_l; [|apply Rinv_le_contravar; lra]. assert (0 < / INR k) by (apply Rinv_0_lt_compat; lra). nra. }
    nra.
Qed.

Lemma ln2_bounds : 5 / 8 <= ln 2 <= 5 / 6.
Proof.
  split.
  - assert (H3 : 1 <= ln 3).
    { rewrite <- (ln_exp 1). apply ln_le; [apply exp_pos|]. exact exp_le_3. }
    assert (H43 : / 4 <= ln (4 / 3)) by (pose proof (ln_ge_inv (4 / 3) ltac:(lra)) as H; replace (1 - / (4 / 3)) with (/ 4) in H by field; exact H).
    assert (E : 2 * ln 2 = ln 3 + ln (4 / 3)).
    { rewrite <- ln_mult by lra. replace (3 * (4 / 3)) with (2 * 2) by field. rewrite ln_mult by lra. lra. }
    lra.
  - replace 2 with (4 / 3 * (3 / 2)) by field. rewrite ln_mult by lra.
    pose proof (ln_minus1 (4 / 3) ltac:(lra)). pose proof (ln_minus1 (3 / 2) ltac:(lra)). lra.
Qed.

Lemma lnf_mono_diff n k M : (n <= k)%nat -> lnf n - lnf (n - M) <= lnf k - lnf (k - M).
Proof.
  induction 1 as [|k Hk IH]; [lra|]. eapply Rle_trans; [exact IH|]. rewrite lnf_S.
  destruct (le_lt_dec M k) as [H|H].
  - replace (S k - M)%nat with (S (k - M)) by lia. rewrite lnf_S. assert (ln (INR (S (k - M))) <= ln (INR (S k))) by (apply ln_le; [apply lt_0_INR; lia|apply le_INR; lia]). lra.
  - replace (S k - M)%nat with 0%nat by lia. replace (k - M)%nat with 0%nat by lia. assert (0 <= ln (INR (S k))); [|lra].
    rewrite <- ln_1. apply ln_le; [lra|]. rewrite S_INR. pose proof (pos_INR k). lra.
Qed.

Lemma Bsum_bound M n : (1 <= M <= n)%nat ->
  Bsum M n - lnf (M - 1) <= lnf (n - 1) + ln (INR M) + INR (2 * M + 1) * ln 2 + INR M / 2 * (ln (1 + ln (INR n)) + 3 / 5).
Proof.
  intros HM. pose proof ln2_bounds as H2. assert (HM1 : 1 <= INR M) by (apply (le_INR 1); lia). assert (Hn1 : INR M <= INR n) by (apply le_INR; lia).
  assert (Hn : 0 <= ln (INR n)) by (rewrite <- ln_1; apply ln_le; lra).
  assert (HA : 0 <= ln (1 + ln (INR n))) by (rewrite <- ln_1 at 1; apply ln_le; lra).
  pose proof (central M) as C. assert (E : lnf M = lnf (M - 1) + ln (INR M)) by (destruct M as [|M']; [lia|]; rewrite lnf_S; do 2 f_equal; lia).
  destruct (le_lt_dec n (2 * M + 1)) as [Hle|Hlt].
  - pose proof (Bsum_fact M n ltac:(lia) ltac:(lia)) as F. pose proof (lnf_mono_diff n (2 * M + 1) M Hle) as D.
    replace (2 * M + 1 - M)%nat with (M + 1)%nat in D by lia. nra.
  - pose proof (Bsum_tail M n ltac:(lia) ltac:(lia)) as F.
    assert (Hx : 2 * INR M + 1 <= INR n) by (apply Nat.lt_le_incl, le_INR in Hlt; rewrite plus_INR, mult_INR in Hlt; cbn in Hlt; lra).
    assert (L1 : ln (ln ((INR n - 1) / INR M)) <= ln (1 + ln (INR n))).
    { assert (Q : 1 < (INR n - 1) / INR M) by (apply (Rmult_lt_reg_r (INR M)); [lra|]; unfold Rdiv; rewrite Rmult_assoc, Rinv_l by lra; lra).
      apply ln_le; [rewrite <- ln_1; apply ln_increasing; lra|].
      assert (ln ((INR n - 1) / INR M) <= ln (INR n)); [|lra]. apply ln_le; [lra|].
      apply (Rmult_le_reg_r (INR M)); [lra|]. unfold Rdiv. rewrite Rmult_assoc, Rinv_l by lra. nra. }
    assert (L2 : - ln (ln 2) <= 3 / 5).
    { pose proof (ln_ge_inv (ln 2) ltac:(lra)) as G. assert (/ ln 2 <= / (5 / 8)) by (apply Rinv_le_contravar; lra). replace (/ (5 / 8)) with (8 / 5) in * by field. lra. }
    nra.
Qed.

(** ** The loss *)
Lemma sad_types A M N xs : NoDup A -> Forall (fun x => In x A) xs -> (used xs <= M)%nat -> (length xs <= N)%nat ->
  0 < seq_prob SAD_model (sad_init (Z.of_nat (length A))) (unit_events xs) /\
  Rsum (map (fun a => lnf_a 0 (occ a xs)) A) - INR (used xs) * (ln (INR (length A)) + ln (2 * (1 + ln (INR N)))) + lnf (used xs - 1) - Bsum M (length xs)
    <= ln (seq_prob SAD_model (sad_init (Z.of_nat (length A))) (unit_events xs)).
Proof.
  intros HA. induction xs as [|x xs IH] using rev_ind; intros Hx HM HN.
  - cbn [unit_events map seq_prob]. split; [lra|]. rewrite ln_1, (counts_nil A (lnf_a 0)) by reflexivity. cbn [used length nodup Nat.sub Bsum]. rewrite lnf_0. cbn. lra.
  - apply Forall_app in Hx as [Hxs Hx]. inversion Hx as [|y l Hin _]; subst. rewrite used_snoc in HM. rewrite app_length in HN. cbn [length] in HN.
    destruct (IH Hxs ltac:(lia) ltac:(lia)) as [P L]. clear IH. destruct (sad_prob_snoc A xs x HA Hxs Hin) as [Q ->].
    split; [now apply Rmult_lt_0_compat|]. set (p := seq_prob _ _ _) in *. clearbody p. rewrite (ln_mult p) by assumption.
    rewrite (counts_snoc A (lnf_a 0) xs x HA Hin), used_snoc, plus_INR, app_length. cbn [length]. rewrite Nat.add_1_r. cbn [Bsum].
    assert (HD : 0 < INR (length A)) by (apply lt_0_INR; destruct A; [destruct Hin|cbn; lia]).
    set (K := ln (2 * (1 + ln (INR N)))) in *.
    assert (HlnN : 0 <= ln (INR N)) by (rewrite <- ln_1; apply ln_le; [lra|apply (le_INR 1); lia]).
    assert (HK : 0 <= K) by (unfold K; rewrite <- ln_1; apply ln_le; lra).
    unfold sad_spec. unfold sad_spec in Q. rewrite syms_unit, distinct_unit, seen_unit, total_unit in *.
    destruct (in_dec Z.eq_dec x xs) as [H|H].
    + assert (Hne : xs <> []) by (intros ->; destruct H). rewrite (escape_unit xs Hne) in *. pose proof (used_pos xs Hne) as U1. pose proof (used_le xs) as U2.
      apply (count_occ_In Z.eq_dec) in H. fold (occ x xs) in H. destruct (occ x xs) as [|k] eqn:E; [lia|]. cbn [lnf_a]. rewrite lnf_S.
      assert (Hk : 0 < INR (S k)) by (apply lt_0_INR; lia). pose proof (bet_pos (length xs) (used xs) ltac:(lia)) as Bp. pose proof (pos_INR (length xs)) as Lp.
      assert (HB : ln (INR (length xs) + bet (length xs) (used xs)) <= B M (length xs)).
      { unfold B. destruct (length xs) as [|n] eqn:En; [lia|]. pose proof (bet_mono (S n) (used xs) (Nat.min (S n) M) ltac:(lia) ltac:(lia)). apply ln_le; lra. }
      unfold Rdiv. rewrite ln_mult, ln_Rinv by (try apply Rinv_0_lt_compat; lra). rewrite Nat.add_0_r. change (INR 0) with 0. lra.
    + apply (count_occ_not_In Z.eq_dec) in H as Ho. fold (occ x xs) in Ho. rewrite Ho. cbn [lnf_a]. rewrite lnf_0. change (INR 1) with 1. rewrite ln_1.
      assert (HU : (used xs < length A)%nat).
      { unfold used. change (length (x :: nodup Z.eq_dec xs) <= length A)%nat. apply NoDup_incl_length.
        - constructor; [rewrite nodup_In; exact H|apply NoDup_nodup].
        - intros y [<-|Hy]; [exact Hin|]. apply nodup_In in Hy. rewrite Forall_forall in Hxs. now apply Hxs. }
      assert (HDm : 0 < INR (length A - used xs)) by (apply lt_0_INR; lia).
      assert (HDl : ln (INR (length A - used xs)) <= ln (INR (length A))) by (apply ln_le; [exact HDm|apply le_INR; lia]).
      destruct xs as [|x0 xs'].
      * cbn [unit_events map escape length used nodup B Nat.add Nat.sub INR]. cbn [length used nodup Nat.sub Bsum] in L. change (INR 0) with 0 in *. rewrite lnf_0 in *.
        cbn [used nodup length] in HDl. replace (1 / (INR (length A - 0) * (0 + 1))) with (/ INR (length A)) by (rewrite Nat.sub_0_r; field; lra). rewrite ln_Rinv by exact HD. cbn [Bsum]. lra.
      * set (ys := x0 :: xs') in *. assert (Hne : ys <> []) by discriminate. rewrite (escape_unit ys Hne) in *. pose proof (used_pos ys Hne) as U1. pose proof (used_le ys) as U2.
        pose proof (bet_pos (length ys) (used ys) ltac:(lia)) as Bp. pose proof (pos_INR (length ys)) as Lp.
        assert (HB : ln (INR (length ys) + bet (length ys) (used ys)) <= B M (length ys)).
        { unfold B. destruct (length ys) as [|n] eqn:En; [lia|]. pose proof (bet_mono (S n) (used ys) (Nat.min (S n) M) ltac:(lia) ltac:(lia)). apply ln_le; lra. }
        assert (HE : ln (INR (used ys)) - K <= ln (bet (length ys) (used ys))).
        { pose proof (Hm1 (length ys) (used ys) ltac:(lia)) as V1. pose proof (ratio_ln_pos (length ys) (used ys) ltac:(lia)) as V2.
          unfold bet, Rdiv at 1. rewrite ln_mult, ln_Rinv by (try apply Rinv_0_lt_compat; lra). apply Rplus_le_compat_l, Ropp_le_contravar.
          apply ln_le; [lra|]. assert (ln ((INR (length ys) + 1) / INR (used ys)) <= ln (INR N)); [|lra].
          pose proof (ratio_gt1 (length ys) (used ys) ltac:(lia)). apply ln_le; [lra|].
          assert (INR (length ys) + 1 <= INR N) by (rewrite <- S_INR; apply le_INR; lia).
          apply (Rmult_le_reg_r (INR (used ys))); [lra|]. unfold Rdiv. rewrite Rmult_assoc, Rinv_l by lra. nra. }
        assert (HF : lnf (used ys + 1 - 1) = lnf (used ys - 1) + ln (INR (used ys))).
        { replace (used ys + 1 - 1)%nat with (S (used ys - 1)) by lia. rewrite lnf_S. do 2 f_equal. f_equal. lia. }
        set (e := bet (length ys) (used ys)) in *. set (u := INR (length A - used ys)) in *. set (v := INR (length ys)) in *. clearbody e u v.
        assert (EQ : ln (e / (u * (v + e))) = ln e - (ln u + ln (v + e))).
        { unfold Rdiv. assert (0 < u * (v + e)) by (apply Rmult_lt_0_compat; lra).
          rewrite (ln_mult e), ln_Rinv, ln_mult by (try apply Rinv_0_lt_compat; lra). lra. }
        rewrite EQ, HF. change (INR 1) with 1. lra.
Qed.

Lemma sad_redundancy A theta xs s l : NoDup A -> Forall (fun x => In x A) xs -> xs <> [] ->
  is_source A theta -> 0 < source_prob theta xs -> run SAD_model (sad_init (Z.of_nat (length A))) (unit_events xs) = Ok (s, l) ->
  - l <= - ln (source_prob theta xs) +
         INR (used xs) * (ln (INR (length A)) + / 2 * ln (INR (length xs)) + 3 / 2 * ln (1 + ln (INR (length xs))) + 4).
Proof.
  intros HA Hx Hne Hs Hp Hr. destruct (sad_types A (used xs) (length xs) xs HA Hx (Nat.le_refl _) (Nat.le_refl _)) as [P L].
  rewrite (seq_prob_run _ _ _ _ _ Hr) in L. rewrite ln_exp in L.
  pose proof (types_bound 0 A theta xs ltac:(lra) HA Hx Hne Hs Hp) as T. pose proof (used_pos xs Hne) as U1. pose proof (used_le xs) as U2.
  pose proof (Bsum_bound (used xs) (length xs) ltac:(lia)) as G. assert (E : lnf (length xs) = lnf (length xs - 1) + ln (INR (length xs))).
  { destruct xs as [|x xs']; [congruence|]. cbn [length]. rewrite lnf_S. cbn [Nat.sub]. rewrite Nat.sub_0_r. reflexivity. }
  assert (H1 : 1 <= INR (used xs)) by (apply (le_INR 1); lia). assert (H1n : INR (used xs) <= INR (length xs)) by (apply le_INR; lia).
  assert (Hn : 0 <= ln (INR (length xs))) by (rewrite <- ln_1; apply ln_le; lra).
  assert (HA0 : 0 <= ln (1 + ln (INR (length xs)))) by (rewrite <- ln_1 at 1; apply ln_le; lra).
  pose proof ln2_bounds as H2. pose proof (ln_minus1 (INR (used xs)) ltac:(lra)) as HM.
  rewrite ln_mult in L by lra.
  assert (E2 : INR (2 * used xs + 1) = 2 * INR (used xs) + 1) by (rewrite plus_INR, mult_INR; cbn; lra). rewrite E2 in G.
  nra.
Qed.

Lemma any_runs A xs : NoDup A -> A <> [] -> Forall (fun x => In x A) xs ->
  (exists s l, run KT_model (kt_init A) (unit_events xs) = Ok (s, l)) /\
  (exists s l, run SAD_model (sad_init (Z.of_nat (length A))) (unit_events xs) = Ok (s, l)).
Proof.
  intros HA Hne Hx. split.
  - destruct (kt_rep_run A (unit_events xs) [] _ (kt_rep_init A HA Hne) (ok_unit_events A xs Hx)) as (s & l & Hr & _). now exists s, l.
  - destruct (sad_run A _ (unit_events xs) (sad_inv_init A HA)) as (s & l & Hr & _); [|now exists s, l].
    unfold unit_events. rewrite Forall_map. eapply Forall_impl; [|exact Hx]. intros a Ha. split; [exact Ha|]. split; [exact I|]. cbn. unfold positive. lra.
Qed.
