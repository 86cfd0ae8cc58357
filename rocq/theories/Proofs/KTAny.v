(** KT over any alphabet. *)
From Coq Require Import Lra Lia.
From Verif Require Import Model.KT Spec.MemorylessSpec Proofs.RealFacts Proofs.ProbFacts Proofs.KTFacts Proofs.KTRedundancy Proofs.TypesFacts.
Open Scope R_scope.

Lemma bernoulli_ln alpha j : 0 <= alpha <= 1 -> 0 < j -> alpha * (ln (j + 1) - ln j) <= ln (j + alpha) - ln j.
Proof.
  intros Ha Hj.
  (* concavity of ln: alpha ln (j+1) + (1 - alpha) ln j <= ln (alpha (j+1) + (1 - alpha) j) *)
  set (y := j + alpha). assert (Hy : 0 < y) by (unfold y; lra).
  pose proof (ln_minus1 ((j + 1) * / y)) as H1. pose proof (ln_minus1 (j * / y)) as H2.
  assert (Hi : 0 < / y) by now apply Rinv_0_lt_compat.
  specialize (H1 ltac:(apply Rmult_lt_0_compat; lra)). specialize (H2 ltac:(apply Rmult_lt_0_compat; lra)).
  rewrite ln_mult, ln_Rinv in H1 by lra. rewrite ln_mult, ln_Rinv in H2 by lra.
  assert (E : alpha * ((j + 1) * / y - 1) + (1 - alpha) * (j * / y - 1) = 0) by (unfold y; field; unfold y in Hy; lra).
  nra.
Qed.

Lemma kt_types A xs : NoDup A -> A <> [] -> Forall (fun x => In x A) xs ->
  0 < seq_prob KT_model (kt_init A) (unit_events xs) /\
  Rsum (map (fun a => lnf_a (/ INR (length A)) (occ a xs)) A) - INR (used xs) * ln (INR (length A)) - lnf (length xs)
    <= ln (seq_prob KT_model (kt_init A) (unit_events xs)).
Proof.
  intros HA Hne. set (d := INR (length A)).
  assert (Hd : 1 <= d) by (unfold d; destruct A as [|a A]; [congruence|]; cbn [length]; rewrite S_INR; pose proof (pos_INR (length A)); lra).
  assert (Hi : 0 < / d <= 1) by (split; [apply Rinv_0_lt_compat; lra|rewrite <- Rinv_1; apply Rinv_le_contravar; lra]).
  induction xs as [|x xs IH] using rev_ind; intros Hx.
  - cbn [unit_events map seq_prob]. split; [lra|]. rewrite ln_1, (counts_nil A (lnf_a (/ d))) by reflexivity. cbn [used length nodup]. rewrite lnf_0. cbn. lra.
  - apply Forall_app in Hx as [Hxs Hx]. inversion Hx as [|y l Hin _]; subst. destruct (IH Hxs) as [P L]. clear IH.
    rewrite (kt_prob_snoc A xs x HA Hne Hxs Hin). fold d. set (p := seq_prob KT_model (kt_init A) (unit_events xs)) in *. clearbody p.
    pose proof (pos_INR (occ x xs)) as Ho. pose proof (pos_INR (length xs)) as Hn.
    assert (Q1 : 0 < 1 / d + INR (occ x xs)) by (unfold Rdiv; lra). assert (Q2 : 0 < 1 + INR (length xs)) by lra.
    assert (Q : 0 < (1 / d + INR (occ x xs)) / (1 + INR (length xs))) by now apply Rdiv_lt_0_compat.
    split; [now apply Rmult_lt_0_compat|]. rewrite ln_mult by assumption. 
    assert (EQ : ln ((1 / d + INR (occ x xs)) / (1 + INR (length xs))) = ln (1 / d + INR (occ x xs)) - ln (1 + INR (length xs))).
    { unfold Rdiv at 1. rewrite ln_mult, ln_Rinv by (try apply Rinv_0_lt_compat; assumption). lra. }
    rewrite EQ.
    rewrite (counts_snoc A (lnf_a (/ d)) xs x HA Hin), used_snoc, plus_INR, app_length. cbn [length]. rewrite Nat.add_1_r, lnf_S, S_INR.
    rewrite (Rplus_comm (INR (length xs)) 1). destruct (in_dec Z.eq_dec x xs) as [H|H].
    + apply (count_occ_In Z.eq_dec) in H. fold (occ x xs) in H. destruct (occ x xs) as [|k] eqn:E; [lia|]. cbn [lnf_a]. rewrite lnf_S.
      assert (Hk : 0 < INR (S k)) by (apply lt_0_INR; lia).
      pose proof (bernoulli_ln (/ d) (INR (S k)) ltac:(lra) Hk) as B. rewrite (S_INR (S k)).
      replace (1 / d + INR (S k)) with (INR (S k) + / d) by (unfold Rdiv; lra). change (INR 0) with 0. lra.
    + apply (count_occ_not_In Z.eq_dec) in H. fold (occ x xs) in H. rewrite H. cbn [lnf_a]. rewrite lnf_0. change (INR 1) with 1. change (INR 0) with 0. rewrite ln_1.
      replace (1 / d + 0) with (/ d) by (unfold Rdiv; lra). rewrite ln_Rinv by lra. lra.
Qed.

Lemma kt_any_redundancy A theta xs s l : NoDup A -> (2 <= length A)%nat -> Forall (fun x => In x A) xs -> xs <> [] ->
  is_source A theta -> 0 < source_prob theta xs -> run KT_model (kt_init A) (unit_events xs) = Ok (s, l) ->
  - l <= - ln (source_prob theta xs) + (/ 2 + (/ 2 - / INR (length A)) * INR (used xs)) * ln (INR (length xs)) +
         INR (used xs) * ln (INR (length A)) + 1 - 7 / 8 * INR (used xs).
Proof.
  intros HA HD Hx Hne Hs Hp Hr. assert (HAne : A <> []) by (destruct A; [cbn in HD; lia|discriminate]).
  destruct (kt_types A xs HA HAne Hx) as [P L]. rewrite (seq_prob_run _ _ _ _ _ Hr) in L. rewrite ln_exp in L.
  assert (Hd : / INR (length A) <= / 2).
  { apply Rinv_le_contravar; [lra|]. apply le_INR in HD. cbn in HD. lra. }
  pose proof (types_bound (/ INR (length A)) A theta xs Hd HA Hx Hne Hs Hp). lra.
Qed.
