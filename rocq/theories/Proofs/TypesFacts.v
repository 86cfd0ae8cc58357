(** Factorials, counts of symbols, and memoryless sources. *)
From Coq Require Import Lra Lia.
From Verif Require Import Spec.MemorylessSpec Proofs.RealFacts Proofs.LnBounds Proofs.KTRedundancy.
Open Scope R_scope.

(** ** Stirling *)
Definition lnf (n : nat) : R := ln (INR (fact n)).
Lemma fact_pos n : 0 < INR (fact n).
Proof. apply lt_0_INR, lt_O_fact. Qed.
Lemma lnf_S n : lnf (S n) = lnf n + ln (INR (S n)).
Proof. unfold lnf. rewrite fact_simpl, mult_INR, ln_mult; [lra|apply lt_0_INR; lia|apply fact_pos]. Qed.
Lemma lnf_0 : lnf 0 = 0.
Proof. unfold lnf. cbn. apply ln_1. Qed.
Lemma lnf_1 : lnf 1 = 0.
Proof. unfold lnf. cbn. apply ln_1. Qed.
Lemma lnf_nonneg n : 0 <= lnf n.
Proof. induction n as [|n IH]; [rewrite lnf_0; lra|]. rewrite lnf_S. assert (ln 1 <= ln (INR (S n))); [|rewrite ln_1 in *; lra]. apply ln_le; [lra|]. rewrite S_INR. pose proof (pos_INR n). lra. Qed.

Lemma ln_minus1 y : 0 < y -> ln y <= y - 1.
Proof. intros Hy. pose proof (exp_ineq1_le (ln y)) as H. rewrite exp_ln in H by exact Hy. lra. Qed.

Lemma lnf_upper n : (1 <= n)%nat -> lnf n <= (INR n + / 2) * ln (INR n) - INR n + 1.
Proof.
  induction n as [|n IH]; [lia|]. intros _. destruct (Nat.eq_dec n 0) as [->|Hn].
  - rewrite lnf_1. cbn [INR]. rewrite ln_1. lra.
  - specialize (IH ltac:(lia)). rewrite lnf_S, S_INR. assert (Hx : 0 < INR n) by (apply lt_0_INR; lia).
    pose proof (ln_succ_lower (INR n) Hx). lra.
Qed.

Lemma half_step x : 0 < x -> (x + / 2) * (ln (x + 1) - ln x) <= 1 + / 8 * (/ x - / (x + 1)).
Proof.
  intros Hx. pose proof (ln_succ_upper x Hx) as H.
  assert (E : 2 * ln (x + / 2) - ln (x + 1) - ln x <= / 4 * (/ x - / (x + 1))).
  { replace (2 * ln (x + / 2) - ln (x + 1) - ln x) with (ln ((x + / 2) * (x + / 2) * / (x * (x + 1)))).
    - assert (P : 0 < x * (x + 1)) by nra. assert (0 < / (x * (x + 1))) by now apply Rinv_0_lt_compat.
      pose proof (ln_minus1 ((x + / 2) * (x + / 2) * / (x * (x + 1))) ltac:(apply Rmult_lt_0_compat; nra)) as G.
      replace ((x + / 2) * (x + / 2) * / (x * (x + 1)) - 1) with (/ 4 * (/ x - / (x + 1))) in G by (field; lra). exact G.
    - assert (0 < / (x * (x + 1))) by (apply Rinv_0_lt_compat; nra). rewrite ln_mult, ln_Rinv, !ln_mult by nra. lra. }
  lra.
Qed.

Lemma lnf_lower_inv n : (1 <= n)%nat -> (INR n + / 2) * ln (INR n) - INR n + 7 / 8 + / 8 * / INR n <= lnf n.
Proof.
  induction n as [|n IH]; [lia|]. intros _. destruct (Nat.eq_dec n 0) as [->|Hn].
  - rewrite lnf_1. cbn [INR]. rewrite ln_1. lra.
  - specialize (IH ltac:(lia)). rewrite lnf_S, S_INR. assert (Hx : 0 < INR n) by (apply lt_0_INR; lia).
    pose proof (half_step (INR n) Hx). lra.
Qed.
Lemma lnf_lower n : (1 <= n)%nat -> (INR n + / 2) * ln (INR n) - INR n + 7 / 8 <= lnf n.
Proof. intros Hn. pose proof (lnf_lower_inv n Hn). assert (0 < / INR n) by (apply Rinv_0_lt_compat, lt_0_INR; lia). lra. Qed.

(** ** Sums over the alphabet *)
Lemma sum_at A x (c : R) : NoDup A -> In x A -> Rsum (map (fun a => if Z.eq_dec x a then c else 0) A) = c.
Proof.
  induction 1 as [|a A Ha HA IH]; intros Hin; [destruct Hin|]. cbn [map]. rewrite Rsum_cons. destruct (Z.eq_dec x a) as [->|Hne].
  - rewrite (Rsum_map_ext _ (fun _ => 0)); [rewrite Rsum_const; lra|]. intros b Hb. destruct (Z.eq_dec a b) as [->|]; [contradiction|reflexivity].
  - destruct Hin as [->|Hin]; [congruence|]. rewrite (IH Hin). lra.
Qed.

Lemma occ_snoc a xs x : occ a (xs ++ [x]) = (occ a xs + if Z.eq_dec x a then 1 else 0)%nat.
Proof. unfold occ. rewrite count_occ_app. cbn [count_occ]. destruct (Z.eq_dec x a); reflexivity. Qed.

(** A function of the counts changes at one symbol only. *)
Lemma counts_snoc A (g : nat -> R) xs x : NoDup A -> In x A ->
  Rsum (map (fun a => g (occ a (xs ++ [x]))) A) = Rsum (map (fun a => g (occ a xs)) A) + (g (S (occ x xs)) - g (occ x xs)).
Proof.
  intros HA Hx. rewrite <- (sum_at A x (g (S (occ x xs)) - g (occ x xs)) HA Hx) at 1. rewrite <- Rsum_plus. apply Rsum_map_ext. intros a Ha.
  rewrite occ_snoc. destruct (Z.eq_dec x a) as [->|]; [rewrite Nat.add_1_r|rewrite Nat.add_0_r]; lra.
Qed.

Lemma counts_nil A (g : nat -> R) : g 0%nat = 0 -> Rsum (map (fun a => g (occ a [])) A) = 0.
Proof. intros H. rewrite (Rsum_map_ext _ (fun _ => 0)); [rewrite Rsum_const; lra|]. intros a _. exact H. Qed.

Lemma counts_length A xs : NoDup A -> Forall (fun x => In x A) xs -> Rsum (map (fun a => INR (occ a xs)) A) = INR (length xs).
Proof.
  intros HA. induction xs as [|x xs IH] using rev_ind; intros Hx; [apply (counts_nil A INR); reflexivity|].
  apply Forall_app in Hx as [Hxs Hx]. inversion Hx; subst. rewrite (counts_snoc A INR) by assumption. rewrite (IH Hxs), app_length, plus_INR, S_INR. cbn. lra.
Qed.

Lemma used_snoc xs x : used (xs ++ [x]) = (used xs + if in_dec Z.eq_dec x xs then 0 else 1)%nat.
Proof.
  unfold used. destruct (in_dec Z.eq_dec x xs) as [H|H].
  - rewrite Nat.add_0_r. apply Nat.le_antisymm; apply NoDup_incl_length; try apply NoDup_nodup; intros y Hy; rewrite nodup_In in *.
    + apply in_app_iff in Hy as [Hy|[<-|[]]]; assumption.
    + apply in_app_iff. now left.
  - rewrite Nat.add_1_r. change (S (length (nodup Z.eq_dec xs))) with (length (x :: nodup Z.eq_dec xs)).
    apply Nat.le_antisymm; apply NoDup_incl_length; try apply NoDup_nodup.
    + intros y Hy. rewrite nodup_In in Hy. apply in_app_iff in Hy as [Hy|[<-|[]]]; [right; now apply nodup_In|now left].
    + constructor; [rewrite nodup_In; exact H|apply NoDup_nodup].
    + intros y [<-|Hy]; rewrite nodup_In in *; apply in_app_iff; [right; now left|now left].
Qed.
Lemma used_le xs : (used xs <= length xs)%nat.
Proof. unfold used. apply NoDup_incl_length; [apply NoDup_nodup|]. intros x Hx. now apply nodup_In in Hx. Qed.
Lemma used_pos xs : xs <> [] -> (1 <= used xs)%nat.
Proof. destruct xs as [|x xs]; [congruence|]. intros _. unfold used. destruct (nodup Z.eq_dec (x :: xs)) eqn:E; [|cbn; lia]. exfalso. assert (In x []) as []. rewrite <- E. apply nodup_In. now left. Qed.

Lemma counts_used A xs (c : R) : NoDup A -> Forall (fun x => In x A) xs ->
  Rsum (map (fun a => match occ a xs with 0%nat => 0 | S _ => c end) A) = INR (used xs) * c.
Proof.
  intros HA. induction xs as [|x xs IH] using rev_ind; intros Hx.
  - rewrite (counts_nil A (fun k => match k with 0%nat => 0 | S _ => c end)) by reflexivity. cbn. lra.
  - apply Forall_app in Hx as [Hxs Hx]. inversion Hx; subst. rewrite (counts_snoc A (fun k => match k with 0%nat => 0 | S _ => c end)) by assumption.
    rewrite (IH Hxs), used_snoc, plus_INR. destruct (in_dec Z.eq_dec x xs) as [H|H].
    + apply (count_occ_In Z.eq_dec) in H. fold (occ x xs) in H. destruct (occ x xs) as [|k]; [lia|]. cbn. lra.
    + apply (count_occ_not_In Z.eq_dec) in H. fold (occ x xs) in H. rewrite H. cbn. lra.
Qed.

(** ** The best source *)
Lemma source_snoc theta xs x : source_prob theta (xs ++ [x]) = source_prob theta xs * theta x.
Proof. unfold source_prob. rewrite fold_right_app. cbn [fold_right]. induction xs as [|y xs IH]; cbn [fold_right]; [lra|]. rewrite IH. lra. Qed.

Lemma source_ln A theta xs : NoDup A -> Forall (fun x => In x A) xs -> Forall (fun x => 0 < theta x) xs ->
  0 < source_prob theta xs /\ ln (source_prob theta xs) = Rsum (map (fun a => INR (occ a xs) * ln (theta a)) A).
Proof.
  intros HA. induction xs as [|x xs IH] using rev_ind; intros Hx Ht.
  - split; [unfold source_prob; cbn; lra|]. unfold source_prob. cbn [fold_right]. rewrite ln_1. rewrite (Rsum_map_ext _ (fun _ => 0)); [rewrite Rsum_const; lra|]. intros a _. cbn. lra.
  - apply Forall_app in Hx as [Hxs Hx]. inversion Hx; subst. apply Forall_app in Ht as [Hts Ht]. inversion Ht; subst.
    destruct (IH Hxs Hts) as [P E]. rewrite source_snoc. split; [now apply Rmult_lt_0_compat|]. rewrite ln_mult by assumption. rewrite E.
    rewrite <- (sum_at A x (ln (theta x)) HA ltac:(assumption)) at 1. rewrite <- Rsum_plus. apply Rsum_map_ext. intros a Ha. rewrite occ_snoc.
    destruct (Z.eq_dec x a) as [->|]; [rewrite plus_INR|rewrite Nat.add_0_r]; cbn [INR]; lra.
Qed.

Lemma source_support theta xs : 0 < source_prob theta xs -> Forall (fun x => 0 <= theta x) xs -> Forall (fun x => 0 < theta x) xs.
Proof.
  induction xs as [|x xs IH]; intros H Hp; [constructor|]. inversion Hp; subst. cbn [source_prob fold_right] in H. change (0 < theta x * source_prob theta xs) in H.
  assert (theta x <> 0) by (intros E; rewrite E in H; lra). assert (0 < theta x) by lra. constructor; [assumption|]. apply IH; [|assumption]. nra.
Qed.

(** No source gives a sequence more than its relative frequencies do. *)
Lemma best_source A theta xs : NoDup A -> Forall (fun x => In x A) xs -> xs <> [] -> is_source A theta -> 0 < source_prob theta xs ->
  ln (source_prob theta xs) <= Rsum (map (fun a => INR (occ a xs) * ln (INR (occ a xs))) A) - INR (length xs) * ln (INR (length xs)).
Proof.
  intros HA Hx Hne [Hp Hs] Hpos.
  assert (Ht : Forall (fun x => 0 < theta x) xs).
  { apply source_support; [exact Hpos|]. eapply Forall_impl; [|exact Hx]. intros a. apply Hp. }
  rewrite (proj2 (source_ln A theta xs HA Hx Ht)). set (n := INR (length xs)).
  assert (Hn : 0 < n) by (apply lt_0_INR; destruct xs; [congruence|cbn; lia]).
  assert (G : Rsum (map (fun a => INR (occ a xs) * ln (theta a)) A) <=
              Rsum (map (fun a => INR (occ a xs) * ln (INR (occ a xs)) + (n * theta a + INR (occ a xs) * (- ln n - 1))) A)).
  { apply Rsum_le. intros a Ha. specialize (Hp a Ha). destruct (occ a xs) as [|k] eqn:E; [cbn [INR]; nra|].
    assert (Hin : In a xs) by (apply (count_occ_In Z.eq_dec); fold (occ a xs); lia). rewrite Forall_forall in Ht. specialize (Ht a Hin).
    set (c := INR (S k)) in *. assert (Hc : 0 < c) by (apply lt_0_INR; lia).
    pose proof (ln_minus1 (n * theta a * / c)) as G. assert (0 < / c) by now apply Rinv_0_lt_compat.
    specialize (G ltac:(apply Rmult_lt_0_compat; [nra|assumption])). rewrite !ln_mult, ln_Rinv in G by nra.
    apply (Rmult_le_compat_l c) in G; [|lra]. replace (c * (n * theta a * / c - 1)) with (n * theta a - c) in G by (field; lra). lra. }
  eapply Rle_trans; [exact G|]. rewrite !Rsum_plus, Rsum_scal_l, Rsum_scal_r, (counts_length A xs HA Hx). fold n. nra.
Qed.

(** ** Sums of logarithms of factorials of the counts *)
Definition lnf_a (alpha : R) (k : nat) : R := match k with 0%nat => 0 | S j => lnf j + alpha * ln (INR k) end.

Lemma types_bound alpha A theta xs : alpha <= / 2 -> NoDup A -> Forall (fun x => In x A) xs -> xs <> [] -> is_source A theta -> 0 < source_prob theta xs ->
  lnf (length xs) - Rsum (map (fun a => lnf_a alpha (occ a xs)) A) <=
  - ln (source_prob theta xs) + (/ 2 + (/ 2 - alpha) * INR (used xs)) * ln (INR (length xs)) + 1 - 7 / 8 * INR (used xs).
Proof.
  intros Ha2 HA Hx Hne Hs Hpos. pose proof (best_source A theta xs HA Hx Hne Hs Hpos) as B.
  assert (Hl : (1 <= length xs)%nat) by (destruct xs; [congruence|cbn; lia]).
  pose proof (lnf_upper (length xs) Hl) as U. set (n := INR (length xs)) in *.
  assert (L : Rsum (map (fun a => INR (occ a xs) * ln (INR (occ a xs)) + (- INR (occ a xs) + match occ a xs with 0%nat => 0 | S _ => 7 / 8 - (/ 2 - alpha) * ln n end)) A) <=
              Rsum (map (fun a => lnf_a alpha (occ a xs)) A)).
  { apply Rsum_le. intros a Ha. destruct (occ a xs) as [|k] eqn:E; [cbn; lra|]. cbn [lnf_a].
    pose proof (lnf_lower (S k) ltac:(lia)) as G. rewrite lnf_S in G. set (c := INR (S k)) in *.
    assert (Hc : 0 < c) by (apply lt_0_INR; lia). assert (ln c <= ln n).
    { apply ln_le; [exact Hc|]. apply le_INR. rewrite <- E. unfold occ. apply count_occ_bound. }
    nra. }
  rewrite !Rsum_plus in L. rewrite (counts_used A xs _ HA Hx) in L.
  assert (E : Rsum (map (fun a => - INR (occ a xs)) A) = - n).
  { rewrite (Rsum_map_ext _ (fun a => -1 * INR (occ a xs))) by (intros; lra). rewrite Rsum_scal_l, (counts_length A xs HA Hx). fold n. lra. }
  rewrite E in L. lra.
Qed.
