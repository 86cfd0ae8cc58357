From Coq Require Import Lra.
From Verif Require Import Model.Float Proofs.RealFacts.
Open Scope R_scope.

Lemma logsumexp_in_range vals : vals <> [] ->
  exists shift, (forall v, In v vals -> exp (v - shift) <= 1) /\
    1 <= Rsum (map (fun v => exp (v - shift)) vals) /\
    logsumexp vals = Ok (shift + ln (Rsum (map (fun v => exp (v - shift)) vals))).
Proof.
  intros Hne. destruct (py_max_ok vals Hne) as (m & Hm & Hin & Hmax).
  assert (Hle: forall v, In v vals -> exp (v - m) <= 1).
  { intros v Hv. rewrite <- exp_0. specialize (Hmax v Hv).
    destruct (Rle_lt_or_eq_dec v m Hmax) as [Hlt|Heq].
    - left. apply exp_increasing. lra.
    - right. f_equal. lra. }
  assert (Hge: 1 <= Rsum (map (fun v => exp (v - m)) vals)).
  { apply Rsum_ge_elem.
    - intros y Hy. apply in_map_iff in Hy as (v & <- & _). left. apply exp_pos.
    - apply in_map_iff. exists m. split; [|exact Hin]. rewrite Rminus_diag_eq by reflexivity. apply exp_0. }
  exists m. split; [exact Hle|]. split; [exact Hge|].
  unfold logsumexp. rewrite Hm. cbn [bind]. rewrite py_log_ok by lra. reflexivity.
Qed.

Lemma logsumexp2_in_range a b :
  exists shift d, exp d <= 1 /\ logsumexp2 a b = shift + ln (1 + exp d).
Proof.
  unfold logsumexp2. destruct (Rlt_dec a b) as [H|H].
  - exists b, (a - b). split; [|reflexivity]. rewrite <- exp_0. left. apply exp_increasing. lra.
  - exists a, (b - a). split; [|reflexivity]. rewrite <- exp_0.
    destruct (Rle_lt_or_eq_dec b a) as [Hlt|Heq]; [lra| |].
    + left. apply exp_increasing. lra.
    + right. f_equal. lra.
Qed.

Lemma h_log_sum_exp_ok vals : vals <> [] -> h_log_sum_exp vals = Ok (ln (Rsum (map exp vals))).
Proof.
  intros Hne. rewrite <- (logsumexp_ok vals Hne). unfold h_log_sum_exp, logsumexp.
  destruct (py_max_ok vals Hne) as (m & -> & Hin & Hmax). cbn [bind]. rewrite map_map.
  rewrite py_log_ok; [reflexivity|]. rewrite <- (map_map (fun v => v - m) exp).
  apply exp_sum_pos. destruct vals; [congruence|discriminate].
Qed.

Lemma c_logsumexp2_eq a b : c_logsumexp2 a b = ln (exp a + exp b).
Proof.
  rewrite <- logsumexp2_spec. apply exp_inj. rewrite logsumexp2_exp. unfold c_logsumexp2.
  destruct (Rlt_dec b a); rewrite exp_plus, exp_ln, exp_minus;
    try (field; apply Rgt_not_eq, exp_pos).
  - pose proof (exp_pos (b - a)); lra.
  - pose proof (exp_pos (a - b)); lra.
Qed.

Lemma fold_left_sum_map {A} (f : A -> R) l acc :
  fold_left (fun rv v => rv + f v) l acc = acc + Rsum (map f l).
Proof.
  revert acc; induction l as [|x l IH]; intros acc; cbn [fold_left map].
  - rewrite Rsum_nil; lra.
  - rewrite IH, Rsum_cons. lra.
Qed.

Lemma c_logsumexp_ok vals : vals <> [] -> c_logsumexp vals = Ok (ln (Rsum (map exp vals))).
Proof.
  intros Hne. destruct vals as [|x l]; [congruence|]. clear Hne.
  rewrite <- (h_log_sum_exp_ok (x :: l)) by discriminate. unfold c_logsumexp, h_log_sum_exp, py_max.
  cbn [bind]. rewrite fold_left_sum_map, map_map. f_equal. rewrite Rplus_0_l. apply Rplus_comm.
Qed.

Lemma logsumexp_perm vals vals' : Permutation.Permutation vals vals' -> logsumexp vals = logsumexp vals'.
Proof.
  intros HP. destruct vals as [|x l].
  - apply Permutation.Permutation_nil in HP as ->. reflexivity.
  - rewrite !logsumexp_ok; [|intros ->; apply Permutation.Permutation_sym, Permutation.Permutation_nil in HP; discriminate|discriminate].
    do 2 f_equal. apply Rsum_perm. apply Permutation.Permutation_map. exact HP.
Qed.
