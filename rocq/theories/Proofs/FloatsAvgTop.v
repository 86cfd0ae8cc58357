(** Averager with rounding follows the exact Averager. *)
From Coq Require Import Lra Lia.
From Verif Require Import Spec.FloatsAvgSpec.
From Verif Require Import Proofs.RealFacts Proofs.PyFacts Proofs.KTRedundancy Proofs.LnBounds Proofs.AveragerFacts Proofs.SeqFacts.
From Verif Require Import Proofs.FloatsFacts Proofs.FloatsAvgFacts.
Open Scope R_scope.

Lemma lse_range v lo hi : v <> [] -> (forall x, In x v -> lo <= x <= hi) ->
  lo + ln (INR (length v)) <= ln (Rsum (map exp v)) <= hi + ln (INR (length v)).
Proof.
  intros Hne Hv. assert (Hd : 0 < INR (length v)) by (apply lt_0_INR; destruct v; [congruence|cbn; lia]).
  assert (Hs : exp lo * INR (length v) <= Rsum (map exp v) <= exp hi * INR (length v)).
  { clear Hne Hd. induction v as [|x v IH]; [unfold Rsum; cbn; lra|]. cbn [map length]. rewrite Rsum_cons, S_INR.
    specialize (IH (fun y Hy => Hv y (or_intror Hy))). destruct (Hv x (or_introl eq_refl)) as [H1 H2].
    apply exp_le_mono in H1, H2. lra. }
  pose proof (exp_pos lo). pose proof (exp_pos hi).
  assert (0 < exp lo * INR (length v)) by (apply Rmult_lt_0_compat; assumption).
  replace (lo + ln (INR (length v))) with (ln (exp lo * INR (length v))) by (rewrite ln_mult, ln_exp by assumption; reflexivity).
  replace (hi + ln (INR (length v))) with (ln (exp hi * INR (length v))) by (rewrite ln_mult, ln_exp by assumption; reflexivity).
  split; apply ln_le; lra.
Qed.

Lemma forall2_mapM {A1 A2 B1 B2} (f1 : A1 -> result B1) (f2 : A2 -> result B2) (P : A1 -> A2 -> Prop) (Q : B1 -> B2 -> Prop) :
  (forall x y, P x y -> exists x' y', f1 x = Ok x' /\ f2 y = Ok y' /\ Q x' y') ->
  forall l1 l2, Forall2 P l1 l2 -> exists l1' l2', mapM f1 l1 = Ok l1' /\ mapM f2 l2 = Ok l2' /\ Forall2 Q l1' l2'.
Proof.
  intros H l1 l2 HF. induction HF as [|x y l1 l2 Hxy HF (l1' & l2' & E1 & E2 & IH)].
  - exists [], []. repeat split; constructor.
  - destruct (H x y Hxy) as (x' & y' & F1 & F2 & Hq). exists (x' :: l1'), (y' :: l2'). cbn [mapM].
    rewrite F1, F2. cbn [bind]. rewrite E1, E2. cbn [bind]. repeat split. constructor; assumption.
Qed.

Lemma forall2_len {A B} (P : A -> B -> Prop) l l' : Forall2 P l l' -> length l = length l'.
Proof. induction 1; cbn; congruence. Qed.

Lemma Forall2_impl' {A B} (P Q : A -> B -> Prop) l l' : (forall x y, P x y -> Q x y) -> Forall2 P l l' -> Forall2 Q l l'.
Proof. intros H. induction 1; constructor; auto. Qed.

Lemma mapM_length {A B} (f : A -> result B) : forall l r, mapM f l = Ok r -> length r = length l.
Proof.
  induction l as [|x l IH]; cbn [mapM]; intros r H; [injection H as <-; reflexivity|].
  destruct (f x) as [y|e]; [cbn [bind] in H|discriminate]. destruct (mapM f l) as [r'|e]; [cbn [bind] in H|discriminate].
  injection H as <-. cbn. rewrite (IH r' eq_refl). reflexivity.
Qed.

Lemma keys_same {A B} (P : Z * A -> Z * B -> Prop) l l' : (forall x y, P x y -> fst x = fst y) -> Forall2 P l l' -> map fst l = map fst l'.
Proof. intros H. induction 1 as [|x y l l' Hxy _ IH]; [reflexivity|]. cbn [map]. rewrite (H x y Hxy), IH. reflexivity. Qed.

Lemma forall2_maps {A B C D} (P : A -> B -> Prop) (Q : C -> D -> Prop) f g l l' :
  Forall2 P l l' -> (forall x y, P x y -> Q (f x) (g y)) -> Forall2 Q (map f l) (map g l').
Proof. intros H HQ. induction H; cbn [map]; constructor; auto. Qed.

Lemma favg_lp0 {S} F (ms : list (Z * S)) s : favg_init F ms = Ok s -> av_lp s = 0.
Proof.
  unfold favg_init. destruct (fp_div F 1 _) as [q|e]; [cbn [bind]|discriminate]. destruct (fp_log F q) as [l|e]; [cbn [bind]|discriminate].
  intros H. injection H as <-. reflexivity.
Qed.

Section average.
  Variables (F : floats) (u big : R) (max : nat).
  Hypothesis HF : accurate F u big max.
  Hypothesis Hu : 0 <= u <= / 64.
  Context {S1 S2 : Type} (M1 : model S1) (M2 : model S2) (ok : Z -> list Z -> Prop)
    (N : nat) (eps L c : R) (close : Z -> nat -> S1 -> S2 -> R -> Prop).
  Variables (ms1 : list (Z * S1)) (ms2 : list (Z * S2)).
  Hypothesis HT : follow M1 M2 ok N eps L c close ms1 ms2.
  Hypothesis HL : 0 <= L.
  Hypothesis Hc : 0 <= c.
  Hypothesis Heps : 0 <= eps.
  Hypothesis Hne : ms1 <> [].
  Hypothesis Hnd : NoDup (map fst ms1).
  Let d := length ms1.
  Let A := avg_size N d L c.
  Let E := avg_drift u N d L c eps.
  Hypothesis Hmax : (2 * d <= max)%nat.
  Hypothesis Hbig : 2 * A + 4 * (INR d + 1) ^ 2 <= big.
  Hypothesis Hsmall : 2 * E <= 1.
  Let delta (n : nat) : R := u * A + INR n * (eps + u * A).

  Lemma one_d : 1 <= INR d.
  Proof. apply (le_INR 1). unfold d. destruct ms1; [congruence|cbn; lia]. Qed.
  Lemma lnd0 : 0 <= ln (INR d).
  Proof. rewrite <- ln_1. pose proof one_d. apply ln_le; lra. Qed.
  Lemma A4 : 4 <= A.
  Proof. unfold A, avg_size. pose proof lnd0. pose proof (pos_INR N). nra. Qed.
  Lemma sq0 : 4 <= (INR d + 1) ^ 2.
  Proof. pose proof one_d. nra. Qed.
  Lemma E_is : E = delta N + u * (A + 4 * (INR d + 1) ^ 2).
  Proof. unfold E, avg_drift, delta. fold A. ring. Qed.
  Lemma delta_le n : (n <= N)%nat -> 0 <= delta n <= delta N.
  Proof.
    intros Hn. apply le_INR in Hn. pose proof (pos_INR n). pose proof A4. unfold delta.
    assert (0 <= u * A) by (apply Rmult_le_pos; lra). nra.
  Qed.
  Lemma delta_E : 0 <= u * (A + 4 * (INR d + 1) ^ 2) /\ 0 <= E /\ delta N <= E /\ delta N <= / 2.
  Proof.
    pose proof E_is. pose proof sq0. pose proof A4. pose proof (delta_le N (le_n _)).
    assert (0 <= u * (A + 4 * (INR d + 1) ^ 2)) by (apply Rmult_le_pos; lra). lra.
  Qed.
  Lemma d_small : 8 * (INR d + 1) ^ 2 * u <= 1.
  Proof. pose proof E_is. pose proof A4. pose proof (delta_le N (le_n _)). assert (0 <= u * A) by (apply Rmult_le_pos; lra). nra. Qed.

  (** what is known of the members with one key *)
  Definition moves (k : Z) : Prop :=
    (forall n x y b, close k n x y b -> (n <= N)%nat -> - (INR n * L + c) <= b <= 0) /\
    (forall n x y b a h, close k n x y b -> (S n <= N)%nat -> ok a h ->
      exists x' y' lx ly, m_update M1 x a h 1 = Ok (x', lx) /\ m_update M2 y a h 1 = Ok (y', ly) /\
        Rabs (lx - ly) <= eps /\ close k (S n) x' y' (b + ly)).

  Definition entry (n : nat) (e1 : Z * (S1 * R)) (e2 : Z * (S2 * R)) : Prop :=
    fst e1 = fst e2 /\ moves (fst e1) /\ exists b, close (fst e1) n (fst (snd e1)) (fst (snd e2)) b /\
      snd (snd e2) = b - ln (INR d) /\ Rabs (snd (snd e1) - snd (snd e2)) <= delta n.

  Definition near (n : nat) (s1 : avg S1) (s2 : avg S2) (b : R) : Prop :=
    length (av_models s1) = d /\ Forall2 (entry n) (av_models s1) (av_models s2) /\
    av_lp s2 = b /\ b = ln (Rsum (map exp (avg_weights (av_models s2)))) /\ Rabs (av_lp s1 - b) <= E.

  Lemma entry_size n e1 e2 : entry n e1 e2 -> (n <= N)%nat ->
    - (INR n * L + c) - ln (INR d) <= snd (snd e2) <= - ln (INR d).
  Proof.
    intros (_ & [Hs _] & b & Hb & -> & _) Hn. specialize (Hs _ _ _ _ Hb Hn). lra.
  Qed.

  Lemma nA n : (n <= N)%nat -> 0 <= INR n * L + c + ln (INR d) <= A - 4.
  Proof.
    intros Hn. apply le_INR in Hn. pose proof (pos_INR n). pose proof lnd0. unfold A, avg_size. nra.
  Qed.

  Lemma weights_in (d2 : dict (S2 * R)) n d1 : Forall2 (entry n) d1 d2 -> (n <= N)%nat -> forall x, In x (avg_weights d2) ->
    - (INR n * L + c) - ln (INR d) <= x <= - ln (INR d).
  Proof.
    intros HE Hn x Hx. induction HE as [|e1 e2 d1 d2 H HE IH]; [destruct Hx|].
    destruct Hx as [<-|Hx]; [apply (entry_size n e1 e2 H Hn)|apply IH; exact Hx].
  Qed.

  Lemma weights_near n d1 d2 : Forall2 (entry n) d1 d2 -> Forall2 (fun x y => Rabs (x - y) <= delta n) (avg_weights d1) (avg_weights d2).
  Proof. induction 1 as [|e1 e2 d1 d2 (_ & _ & b & _ & _ & H) HE IH]; constructor; assumption. Qed.

  Lemma sum_size n d1 d2 : Forall2 (entry n) d1 d2 -> (n <= N)%nat -> length d1 = d ->
    - (INR n * L + c) <= ln (Rsum (map exp (avg_weights d2))) <= 0.
  Proof.
    intros HE Hn Hd. assert (Hd2 : length (avg_weights d2) = d) by (unfold avg_weights; rewrite map_length, <- (forall2_len _ _ _ HE); exact Hd).
    assert (Hw : avg_weights d2 <> []). { pose proof one_d as D. unfold avg_weights in *. destruct d2; [|discriminate]. cbn in Hd2. rewrite <- Hd2 in D. cbn in D. lra. }
    pose proof (lse_range _ _ _ Hw (weights_in d2 n d1 HE Hn)) as H. rewrite Hd2 in H. lra.
  Qed.

  (** the sum of the weights *)
  Lemma sum_near v1 v2 : length v1 = d -> Forall2 (fun x y => Rabs (x - y) <= delta N) v1 v2 ->
    (forall y, In y v2 -> - (A - 4) <= y <= 0) ->
    exists r, fp_logsumexp F v1 = Ok r /\ logsumexp v2 = Ok (ln (Rsum (map exp v2))) /\ Rabs (r - ln (Rsum (map exp v2))) <= E.
  Proof.
    intros Hl Hv Hy. destruct delta_E as (E0 & E1 & E2 & E3).
    assert (Hn1 : v1 <> []). { intros ->. pose proof one_d as D. rewrite <- Hl in D. cbn in D. lra. }
    assert (Hn2 : v2 <> []) by (inversion Hv; subst; congruence).
    assert (HA : forall x, In x v1 -> Rabs x <= A).
    { pose proof A4. intros x Hx. revert Hy. clear -Hv Hx E3 HL Hc H. induction Hv as [|x' y v1 v2 Hxy Hv IH]; [destruct Hx|].
      intros Hy. destruct Hx as [->|Hx]; [|apply (IH Hx); intros z Hz; apply Hy; right; exact Hz].
      destruct (Hy y (or_introl eq_refl)). apply abs_le in Hxy. apply Rabs_le. lra. }
    destruct (lse_err F u big max HF Hu v1 A Hn1 HA) as (r & Hr & Herr); [rewrite Hl; exact Hbig|rewrite Hl; apply d_small|].
    exists r. split; [exact Hr|]. split; [apply logsumexp_ok; exact Hn2|].
    pose proof (lse_lip v1 v2 (delta N) Hn1 Hv) as Hlip. rewrite Hl in Herr. apply abs_le in Herr, Hlip. rewrite E_is.
    apply Rabs_le. lra.
  Qed.

  Lemma weight_step n w1 w2 l1 l2 : (S n <= N)%nat -> Rabs (w1 - w2) <= delta n -> Rabs (l1 - l2) <= eps ->
    - (A - 4) <= w2 + l2 <= 0 -> Rabs (f_add F w1 l1 - (w2 + l2)) <= delta (S n) /\ Rabs (f_add F l1 w1 - (w2 + l2)) <= delta (S n).
  Proof.
    intros Hn Hw Hl Hb. destruct (delta_le n ltac:(lia)) as [D0 D1]. destruct (delta_le (S n) Hn) as [D2 D3].
    assert (DS : delta (S n) = delta n + (eps + u * A)) by (unfold delta; rewrite S_INR; ring).
    assert (UA : 0 <= u * A) by (apply Rmult_le_pos; [lra|pose proof A4; lra]).
    destruct delta_E as (E0 & E1 & E2 & E3). apply abs_le in Hw, Hl. pose proof sq0. pose proof A4.
    split.
    - assert (Hf : Rabs (f_add F w1 l1 - (w1 + l1)) <= u * A) by (apply (add_err F u big max HF Hu); [apply Rabs_le; lra|lra]).
      apply abs_le in Hf. apply Rabs_le. lra.
    - assert (Hf : Rabs (f_add F l1 w1 - (l1 + w1)) <= u * A) by (apply (add_err F u big max HF Hu); [apply Rabs_le; lra|lra]).
      apply abs_le in Hf. apply Rabs_le. lra.
  Qed.

  Lemma sub_step x y x' y' : Rabs (x - x') <= E -> Rabs (y - y') <= E -> Rabs (x' - y') <= A - 4 ->
    Rabs (f_sub F x y - (x' - y')) <= avg_eps u N d L c eps.
  Proof.
    intros Hx Hy Hd. apply abs_le in Hx, Hy, Hd. destruct delta_E as (E0 & E1 & E2 & E3). pose proof sq0. pose proof A4.
    assert (Hf : Rabs (f_sub F x y - (x - y)) <= u * A) by (apply (sub_err F u big max HF Hu); [apply Rabs_le; lra|lra]).
    apply abs_le in Hf. unfold avg_eps. fold A E. apply Rabs_le. lra.
  Qed.

  Lemma avg_step n s1 s2 b a h : near n s1 s2 b -> (S n <= N)%nat -> ok a h ->
    exists s1' s2' l1 l2, favg_update F M1 s1 a h 1 = Ok (s1', l1) /\ avg_update M2 s2 a h 1 = Ok (s2', l2) /\
      Rabs (l1 - l2) <= avg_eps u N d L c eps /\ near (S n) s1' s2' (b + l2).
  Proof.
    intros (Hlen & HE & Hb & Hbs & Hlp) Hn Hok.
    destruct (forall2_mapM
      (fun kv : Z * (S1 * R) => let '(k, (m, lp)) := kv in do (m', l) <- m_update M1 m a h 1; Ok (k, (m', f_add F lp l)))
      (fun kv : Z * (S2 * R) => let '(k, (m, lp)) := kv in do (m', l) <- m_update M2 m a h 1; Ok (k, (m', lp + l)))
      (entry n) (entry (S n))) with (l1 := av_models s1) (l2 := av_models s2) as (d1' & d2' & U1 & U2 & HE'); [|exact HE|].
    { intros [k [x w1]] [k' [y w2]] (Hk & [Hs Hm] & bk & Hcl & Hw2 & Hw). cbn [fst snd] in *. subst k'.
      destruct (Hm n x y bk a h Hcl Hn Hok) as (x' & y' & lx & ly & -> & -> & Hl & Hcl'). cbn [bind].
      eexists _, _. split; [reflexivity|]. split; [reflexivity|]. split; [reflexivity|]. split; [split; assumption|].
      exists (bk + ly). cbn [fst snd]. split; [exact Hcl'|]. split; [lra|].
      pose proof (Hs _ _ _ _ Hcl' Hn). pose proof (nA (S n) Hn). pose proof lnd0.
      apply (weight_step n w1 w2 lx ly Hn Hw Hl). lra. }
    assert (Hlen' : length d1' = d) by (rewrite (mapM_length _ _ _ U1); exact Hlen).
    pose proof (weights_near _ _ _ HE') as HW.
    destruct (sum_near (avg_weights d1') (avg_weights d2')) as (r & R1 & R2 & R3).
    { unfold avg_weights. rewrite map_length. exact Hlen'. }
    { destruct (delta_le (S n) Hn). eapply Forall2_impl'; [|exact HW]. intros x y Hxy. cbn beta in *. lra. }
    { intros y Hy. pose proof (weights_in d2' (S n) d1' HE' Hn y Hy). pose proof (nA (S n) Hn). pose proof lnd0. lra. }
    pose proof (sum_size (S n) d1' d2' HE' Hn Hlen') as Z1. pose proof (sum_size n _ _ HE ltac:(lia) Hlen) as Z0. rewrite <- Hbs in Z0.
    set (r2 := ln (Rsum (map exp (avg_weights d2')))) in *.
    exists (AVG d1' r), (AVG d2' r2), (f_sub F r (av_lp s1)), (r2 - av_lp s2).
    unfold favg_update, avg_update. rewrite U1, U2. cbn [bind]. rewrite R1, R2. cbn [bind].
    split; [reflexivity|]. split; [reflexivity|]. rewrite Hb. split.
    - apply sub_step; [exact R3|exact Hlp|]. pose proof (nA (S n) Hn). pose proof (nA n ltac:(lia)). pose proof lnd0. apply Rabs_le. lra.
    - replace (b + (r2 - b)) with r2 by lra. repeat split; try assumption.
  Qed.

  Lemma avg_predict n s1 s2 b a h : (forall k, foresees M1 M2 ok N eps L c (close k)) ->
    near n s1 s2 b -> (S n <= N)%nat -> ok a h ->
    exists l1 l2, favg_log_predict F M1 s1 a h = Ok l1 /\ avg_log_predict M2 s2 a h = Ok l2 /\ Rabs (l1 - l2) <= avg_eps u N d L c eps.
  Proof.
    intros HP (Hlen & HE & Hb & Hbs & Hlp) Hn Hok.
    destruct (forall2_mapM
      (fun kv : Z * (S1 * R) => let '(k, (m, lp)) := kv in do l <- m_logp M1 m a h; Ok (f_add F l lp))
      (fun kv : Z * (S2 * R) => let '(k, (m, lp)) := kv in do l <- m_logp M2 m a h; Ok (l + lp))
      (entry n)
      (fun x y => Rabs (x - y) <= delta N /\ - (INR (S n) * L + c) - ln (INR d) <= y <= - ln (INR d)))
      with (l1 := av_models s1) (l2 := av_models s2) as (v1 & v2 & U1 & U2 & HV); [|exact HE|].
    { intros [k [x w1]] [k' [y w2]] (Hk & _ & bk & Hcl & Hw2 & Hw). cbn [fst snd] in *. subst k'.
      destruct (HP k n x y bk a h Hcl Hn Hok) as (lx & ly & -> & -> & Hl & Hsz). cbn [bind].
      eexists _, _. split; [reflexivity|]. split; [reflexivity|].
      pose proof (nA (S n) Hn). pose proof lnd0. destruct (delta_le (S n) Hn).
      rewrite (Rplus_comm ly w2). destruct (weight_step n w1 w2 lx ly Hn Hw Hl ltac:(lra)) as [_ W]. split; lra. }
    assert (Hl1 : length v1 = d) by (rewrite (mapM_length _ _ _ U1); exact Hlen).
    assert (HV1 : Forall2 (fun x y => Rabs (x - y) <= delta N) v1 v2) by (eapply Forall2_impl'; [|exact HV]; cbn beta; intros; tauto).
    assert (HV2 : forall y, In y v2 -> - (INR (S n) * L + c) - ln (INR d) <= y <= - ln (INR d)).
    { clear -HV. induction HV as [|x y v1 v2 [_ H] HV IH]; [intros z []|]. intros z [<-|Hz]; [exact H|apply IH; exact Hz]. }
    destruct (sum_near v1 v2 Hl1 HV1) as (r & R1 & R2 & R3).
    { intros y Hy. specialize (HV2 y Hy). pose proof (nA (S n) Hn). pose proof lnd0. lra. }
    assert (Hn2 : v2 <> []). { intros ->. inversion HV1; subst. pose proof one_d as D. rewrite <- Hl1 in D. cbn in D. lra. }
    pose proof (lse_range v2 _ _ Hn2 HV2) as Z1. rewrite <- (forall2_len _ _ _ HV1), Hl1 in Z1.
    pose proof (sum_size n _ _ HE ltac:(lia) Hlen) as Z0. rewrite <- Hbs in Z0.
    unfold favg_log_predict, avg_log_predict. rewrite U1, U2. cbn [bind]. rewrite R1, R2. cbn [bind].
    eexists _, _. split; [reflexivity|]. split; [reflexivity|]. rewrite Hb.
    apply sub_step; [exact R3|exact Hlp|]. pose proof (nA (S n) Hn). pose proof (nA n ltac:(lia)). pose proof lnd0. apply Rabs_le. lra.
  Qed.

  (** ** the beginning *)
  Lemma prior_near : exists q l, fp_div F 1 (INR d) = Ok q /\ fp_log F q = Ok l /\ Rabs (l - (- ln (INR d))) <= delta 0.
  Proof.
    pose proof one_d as D. pose proof lnd0 as L0. unfold fp_div. destruct (Req_EM_T (INR d) 0) as [H|_]; [lra|].
    assert (H1 : 1 = INR 2 / 2) by (cbn; lra). assert (H2 : INR d = INR (2 * d) / 2) by (rewrite mult_INR; cbn; lra).
    assert (Hd : (0 < d)%nat) by (apply INR_lt; cbn; lra).
    pose proof (acc_div _ _ _ _ HF 2 (2 * d) ltac:(lia) ltac:(lia)) as Q. rewrite <- H1, <- H2 in Q.
    replace (INR 2 / INR (2 * d)) with (/ INR d) in Q by (rewrite mult_INR; cbn; field; lra).
    set (q := f_div F 1 (INR d)) in *. assert (Pd : 0 < / INR d) by (apply Rinv_0_lt_compat; lra).
    set (p := / INR d) in *. apply abs_le in Q.
    assert (Hq : p * (63 / 64) <= q <= p * (65 / 64)) by nra.
    exists q. unfold fp_log. destruct (Rlt_dec 0 q) as [Hq0|H]; [|exfalso; apply H; lra].
    exists (f_log F q). split; [reflexivity|]. split; [reflexivity|].
    assert (Lp : ln p = - ln (INR d)) by (unfold p; apply ln_Rinv; lra).
    assert (Hlq : Rabs (ln q - ln p) <= u * (64 / 63)).
    { eapply Rle_trans; [apply (ln_lip _ _ (p * (63 / 64))); lra|]. apply Rmult_le_reg_r with (p * (63 / 64)); [lra|].
      unfold Rdiv at 1. rewrite Rmult_assoc, Rinv_l, Rmult_1_r by lra. apply Rabs_le. nra. }
    pose proof (acc_log _ _ _ _ HF q Hq0) as Hl. apply abs_le in Hlq.
    assert (Hal : Rabs (ln q) <= ln (INR d) + 1) by (apply Rabs_le; lra).
    assert (Hl2 : Rabs (f_log F q - ln q) <= u * (ln (INR d) + 2)) by (eapply Rle_trans; [exact Hl|]; apply Rmult_le_compat_l; lra).
    apply abs_le in Hl2. unfold delta. cbn [INR]. pose proof (nA 0 ltac:(lia)) as HA0. cbn [INR] in HA0.
    assert (u * (ln (INR d) + 4) <= u * A) by (apply Rmult_le_compat_l; lra). apply Rabs_le. lra.
  Qed.

  Lemma follow_keys : map fst ms1 = map fst ms2.
  Proof. apply (keys_same _ _ _ (fun x y H => proj1 H) HT). Qed.

  Lemma avg_start : exists s1 s2, favg_init F ms1 = Ok s1 /\ avg_init ms2 = Ok s2 /\ near 0 s1 s2 0.
  Proof.
    destruct prior_near as (q & l & Q1 & Q2 & Q3). pose proof one_d as D.
    assert (Hd2 : length ms2 = d) by (unfold d; symmetry; exact (forall2_len _ _ _ HT)).
    unfold favg_init, avg_init. fold d. rewrite Q1. cbn [bind]. rewrite Q2. cbn [bind]. rewrite Hd2, py_div_ok by lra. cbn [bind].
    assert (Pq : 0 < 1 / INR d) by (apply Rdiv_lt_0_compat; lra). rewrite py_log_ok by exact Pq. cbn [bind].
    assert (Lq : ln (1 / INR d) = - ln (INR d)) by (unfold Rdiv; rewrite Rmult_1_l; apply ln_Rinv; lra). rewrite Lq.
    pose proof (fold_dict_set_app (fst (A:=Z) (B:=S1)) (fun kv => (snd kv, l)) ms1 []) as F1.
    pose proof (fold_dict_set_app (fst (A:=Z) (B:=S2)) (fun kv => (snd kv, - ln (INR d))) ms2 []) as F2.
    rewrite F1; [|exact Hnd|intros x _ []]. rewrite F2; [|rewrite <- follow_keys; exact Hnd|intros x _ []]. cbn [app].
    eexists _, _. split; [reflexivity|]. split; [reflexivity|]. unfold near. cbn [av_models av_lp].
    split; [rewrite map_length; reflexivity|]. split; [|split; [reflexivity|split]].
    - apply (forall2_maps _ _ _ _ _ _ HT). intros x y [H1 H2].
      split; [exact H1|]. cbn [fst snd]. split; [split; [apply (tr_size _ _ _ _ _ _ _ _ _ _ H2)|apply (tr_step _ _ _ _ _ _ _ _ _ _ H2)]|].
      exists 0. split; [apply (tr_new _ _ _ _ _ _ _ _ _ _ H2)|]. split; [lra|exact Q3].
    - unfold avg_weights. rewrite !map_map. cbn [snd]. rewrite Rsum_const, Hd2, exp_Ropp, exp_ln by lra. rewrite Rinv_r by lra. rewrite ln_1. reflexivity.
    - rewrite Rminus_0_r, Rabs_R0. apply delta_E.
  Qed.

  Lemma avg_seq seq : forall n s1 s2 b h r, near n s1 s2 b -> (n + length seq <= N)%nat -> ok_run ok h seq ->
    Rabs (r - av_lp s1) <= INR n * (2 * (u * A)) ->
    exists s1' s2' b' r', fp_update_seq_loop F (FAVG_model F M1) s1 seq h 1 r = Ok (s1', h ++ seq, r') /\
      update_seq_loop (AVG_model M2) s2 seq h 1 b = Ok (s2', h ++ seq, b') /\
      near (n + length seq) s1' s2' b' /\ Rabs (r' - av_lp s1') <= INR (n + length seq) * (2 * (u * A)).
  Proof.
    induction seq as [|a seq IH]; intros n s1 s2 b h r H Hn Hok Hr; cbn [length fp_update_seq_loop update_seq_loop ok_run] in *.
    - exists s1, s2, b, r. rewrite app_nil_r, Nat.add_0_r. auto.
    - destruct Hok as [Ha Hok]. destruct (avg_step n s1 s2 b a h H ltac:(lia) Ha) as (t1 & t2 & l1 & l2 & U1 & U2 & Hl & H').
      cbn [m_update FAVG_model AVG_model]. rewrite U1, U2. cbn [bind].
      assert (El : l1 = f_sub F (av_lp t1) (av_lp s1)).
      { unfold favg_update in U1. destruct (mapM _ (av_models s1)); [cbn [bind] in U1|discriminate].
        destruct (fp_logsumexp F _); [cbn [bind] in U1|discriminate]. injection U1 as <- <-. reflexivity. }
      assert (Hr' : Rabs (f_add F r l1 - av_lp t1) <= INR (S n) * (2 * (u * A))).
      { destruct H as (G1 & G2 & G3 & G4 & G5), H' as (J1 & J2 & J3 & J4 & J5).
        pose proof (sum_size n _ _ G2 ltac:(lia) G1) as Z0. rewrite <- G4 in Z0. pose proof (sum_size (S n) _ _ J2 ltac:(lia) J1) as Z1. rewrite <- J4 in Z1.
        pose proof (nA n ltac:(lia)). pose proof (nA (S n) ltac:(lia)). pose proof lnd0. destruct delta_E as (E0 & E1 & E2 & E3). pose proof sq0. pose proof A4.
        assert (UA : 0 <= u * A) by (apply Rmult_le_pos; lra).
        assert (HuA : u * A <= / 2) by (unfold delta in E3; pose proof (pos_INR N); assert (0 <= INR N * (eps + u * A)) by (apply Rmult_le_pos; lra); lra).
        assert (HnA : INR n * (2 * (u * A)) <= 1).
        { assert (Hn' : INR n <= INR N) by (apply le_INR; lia). pose proof (pos_INR n). unfold delta in E3. assert (0 <= INR N * eps) by (apply Rmult_le_pos; lra). nra. }
        apply abs_le in Hr, G5, J5.
        assert (Hs : Rabs (l1 - (av_lp t1 - av_lp s1)) <= u * A) by (rewrite El; apply (sub_err F u big max HF Hu); [apply Rabs_le; lra|lra]).
        apply abs_le in Hs.
        assert (Hf : Rabs (f_add F r l1 - (r + l1)) <= u * A) by (apply (add_err F u big max HF Hu); [apply Rabs_le; lra|lra]).
        apply abs_le in Hf. rewrite S_INR. apply Rabs_le. lra. }
      destruct (IH (S n) t1 t2 (b + l2) (h ++ [a]) _ H' ltac:(lia) Hok Hr') as (s1' & s2' & b' & r' & V1 & V2 & V3 & V4).
      exists s1', s2', b', r'. rewrite <- app_assoc in V1, V2. cbn [app] in V1, V2. replace (n + S (length seq))%nat with (S n + length seq)%nat by lia. auto.
  Qed.

  (** the choice of a maximum *)
  Lemma near_map n s1 s2 b : near n s1 s2 b -> (n <= N)%nat -> exists k x, avg_map s1 = Ok (k, x) /\
    exists y w, In (k, (y, w)) (av_models s2) /\ forall k' y' w', In (k', (y', w')) (av_models s2) -> w' <= w + 2 * E.
  Proof.
    intros (H1 & H2 & _ & _ & _) Hn.
    assert (Hex : exists k x, avg_map s1 = Ok (k, x)).
    { unfold avg_map. destruct (av_models s1) as [|kv d1']; [pose proof one_d as D; rewrite <- H1 in D; cbn in D; lra|].
      destruct (max_by kv d1') as [k [x w]]. eauto. }
    destruct Hex as (k & x & Hm). exists k, x. split; [exact Hm|].
    destruct (avg_map_spec s1 k x Hm) as (w1 & e1 & e2 & He & Hmx & _).
    destruct delta_E as (_ & _ & E2 & _). destruct (delta_le n Hn) as [_ Dn].
    assert (Hf : forall d1' d2', Forall2 (entry n) d1' d2' -> (forall e, In e d1' -> exists e', In e' d2' /\ entry n e e') /\ (forall e', In e' d2' -> exists e, In e d1' /\ entry n e e')).
    { clear. induction 1 as [|e e' d1' d2' H _ [I1 I2]]; [split; intros ? []|]. split.
      - intros f [<-|Hf]; [exists e'; split; [left; reflexivity|exact H]|]. destruct (I1 f Hf) as (f' & Hf' & Hff). exists f'. split; [right; exact Hf'|exact Hff].
      - intros f [<-|Hf]; [exists e; split; [left; reflexivity|exact H]|]. destruct (I2 f Hf) as (f' & Hf' & Hff). exists f'. split; [right; exact Hf'|exact Hff]. }
    destruct (Hf _ _ H2) as [Hf1 Hf2].
    assert (Hi : In (k, (x, w1)) (av_models s1)) by (rewrite He; apply in_or_app; right; left; reflexivity).
    destruct (Hf1 _ Hi) as ([k2 [y w2]] & Hi2 & (Hk & _ & b' & _ & _ & Hw)). cbn [fst snd] in *. subst k2.
    exists y, w2. split; [exact Hi2|]. intros k' y' w' Hi'. destruct (Hf2 _ Hi') as ([k3 [x3 w3]] & Hi3 & (_ & _ & b3 & _ & _ & Hw3)).
    cbn [fst snd] in *. specialize (Hmx _ _ _ Hi3). apply abs_le in Hw, Hw3. lra.
  Qed.
End average.

Section top.
  Context (F : floats) (u big : R) (max : nat).
  Hypothesis HF : accurate F u big max.
  Hypothesis Hu : 0 <= u <= / 64.
  Context {S1 S2 : Type} (M1 : model S1) (M2 : model S2) (ok : Z -> list Z -> Prop) (eps L c : R)
    (close : Z -> nat -> S1 -> S2 -> R -> Prop) (ms1 : list (Z * S1)) (ms2 : list (Z * S2)).
  Hypothesis HL : 0 <= L.
  Hypothesis Hc : 0 <= c.
  Hypothesis Heps : 0 <= eps.
  Hypothesis Hne : ms1 <> [].
  Hypothesis Hnd : NoDup (map fst ms1).
  Let d := length ms1.
  Hypothesis Hmax : (2 * d <= max)%nat.

  Theorem average_tracks N : follow M1 M2 ok N eps L c close ms1 ms2 ->
    2 * avg_size N d L c + 4 * (INR d + 1) ^ 2 <= big -> 2 * avg_drift u N d L c eps <= 1 ->
    exists s1 s2 close', favg_init F ms1 = Ok s1 /\ avg_init ms2 = Ok s2 /\
      tracks (FAVG_model F M1) (AVG_model M2) s1 s2 ok N (avg_eps u N d L c eps) L c close'.
  Proof.
    intros HT Hbig Hs.
    destruct (avg_start F u big max HF Hu M1 M2 ok N eps L c close ms1 ms2 HT HL Hc Heps Hne Hnd Hmax Hbig Hs) as (s1 & s2 & I1 & I2 & H0).
    exists s1, s2, (near u M1 M2 ok N eps L c close ms1). split; [exact I1|]. split; [exact I2|]. split.
    - exact H0.
    - intros n x y b (G1 & G2 & G3 & -> & _) Hn. exact (sum_size u big max M1 M2 ok N eps L c close ms1 ms2 HT Hne Hnd Hmax Hbig Hs n _ _ G2 Hn G1).
    - intros n x y b a h H Hn Ha. exact (avg_step F u big max HF Hu M1 M2 ok N eps L c close ms1 ms2 HT HL Hc Heps Hne Hnd Hmax Hbig Hs n x y b a h H Hn Ha).
  Qed.
  
  Theorem average_seq seq h : let n := length seq in follow M1 M2 ok n eps L c close ms1 ms2 ->
    2 * avg_size n d L c + 4 * (INR d + 1) ^ 2 <= big -> 2 * avg_drift u n d L c eps <= 1 -> ok_run ok h seq -> seq <> [] ->
    exists s1 s2 x y r r', favg_init F ms1 = Ok s1 /\ avg_init ms2 = Ok s2 /\
      fp_update_seq F (FAVG_model F M1) s1 seq h 1 = Ok (x, h, r') /\ update_seq (AVG_model M2) s2 seq h 1 = Ok (y, h, r) /\
      Rabs (r' - r) <= avg_loss u n d L c eps /\
      exists k m1, avg_map x = Ok (k, m1) /\ (exists m2 w, In (k, (m2, w)) (av_models y) /\
        forall k' m' w', In (k', (m', w')) (av_models y) -> w' <= w + 2 * avg_drift u n d L c eps) /\
      forall kb mb wb, In (kb, (mb, wb)) (av_models y) ->
        (forall k' m' w', In (k', (m', w')) (av_models y) -> k' <> kb -> w' + 2 * avg_drift u n d L c eps < wb) -> k = kb.
  Proof.
    intros n HT Hbig Hs Hok Hsne.
    destruct (avg_start F u big max HF Hu M1 M2 ok n eps L c close ms1 ms2 HT HL Hc Heps Hne Hnd Hmax Hbig Hs) as (s1 & s2 & I1 & I2 & H0).
    destruct (avg_seq F u big max HF Hu M1 M2 ok n eps L c close ms1 ms2 HT HL Hc Heps Hne Hnd Hmax Hbig Hs seq 0 s1 s2 0 h 0 H0 (le_n _) Hok)
      as (x & y & r & r' & V1 & V2 & H1 & H2).
    { rewrite (favg_lp0 _ _ _ I1). cbn [INR]. rewrite Rminus_0_r, Rabs_R0. lra. }
    cbn [Nat.add] in H1, H2. fold n in H1, H2.
    exists s1, s2, x, y, r, r'. split; [exact I1|]. split; [exact I2|]. unfold fp_update_seq, update_seq. rewrite V1, V2. cbn [bind].
    rewrite !clear_suffix by exact Hsne. split; [reflexivity|]. split; [reflexivity|]. split.
    - destruct H1 as (_ & _ & _ & _ & H1). apply abs_le in H1, H2. unfold avg_loss. apply Rabs_le. fold d in H1, H2. lra.
    - destruct (near_map u big max Hu M1 M2 ok n eps L c close ms1 ms2 HT HL Hc Heps Hne Hnd Hmax Hbig Hs n x y r H1 (le_n _)) as (k & m1 & K1 & m2 & w & K2 & K3).
      exists k, m1. split; [exact K1|]. split; [exists m2, w; split; assumption|]. intros kb mb wb Hb Hlead.
      destruct (Z.eq_dec k kb) as [->|Hk]; [reflexivity|]. specialize (Hlead k m2 w K2 Hk). specialize (K3 kb mb wb Hb). fold d in K3. lra.
  Qed.

  Theorem average_predict seq h a : let N := S (length seq) in follow M1 M2 ok N eps L c close ms1 ms2 ->
    (forall k, foresees M1 M2 ok N eps L c (close k)) ->
    2 * avg_size N d L c + 4 * (INR d + 1) ^ 2 <= big -> 2 * avg_drift u N d L c eps <= 1 -> ok_run ok h (seq ++ [a]) -> seq <> [] ->
    exists s1 s2 x y r r' p p', favg_init F ms1 = Ok s1 /\ avg_init ms2 = Ok s2 /\
      fp_update_seq F (FAVG_model F M1) s1 seq h 1 = Ok (x, h, r') /\ update_seq (AVG_model M2) s2 seq h 1 = Ok (y, h, r) /\
      m_logp (FAVG_model F M1) x a (h ++ seq) = Ok p' /\ m_logp (AVG_model M2) y a (h ++ seq) = Ok p /\
      Rabs (p' - p) <= avg_eps u N d L c eps.
  Proof.
    intros N HT HP Hbig Hs Hok Hsne.
    assert (Hok2 : ok_run ok h seq /\ ok a (h ++ seq)).
    { clear -Hok. revert h Hok. induction seq as [|x seq IH]; intros h; cbn [app ok_run].
      - rewrite app_nil_r. tauto.
      - intros [H1 H2]. destruct (IH _ H2) as [H3 H4]. rewrite <- app_assoc in H4. cbn [app] in H4. tauto. }
    destruct Hok2 as [Hok1 Hoka].
    destruct (avg_start F u big max HF Hu M1 M2 ok N eps L c close ms1 ms2 HT HL Hc Heps Hne Hnd Hmax Hbig Hs) as (s1 & s2 & I1 & I2 & H0).
    destruct (avg_seq F u big max HF Hu M1 M2 ok N eps L c close ms1 ms2 HT HL Hc Heps Hne Hnd Hmax Hbig Hs seq 0 s1 s2 0 h 0 H0)
      as (x & y & r & r' & V1 & V2 & H1 & H2).
    { unfold N. lia. }
    { exact Hok1. }
    { rewrite (favg_lp0 _ _ _ I1). cbn [INR]. rewrite Rminus_0_r, Rabs_R0. lra. }
    destruct (avg_predict F u big max HF Hu M1 M2 ok N eps L c close ms1 ms2 HT HL Hc Heps Hne Hnd Hmax Hbig Hs (0 + length seq) x y r a (h ++ seq) HP H1) as (p' & p & P1 & P2 & P3).
    { unfold N. cbn. lia. }
    { exact Hoka. }
    exists s1, s2, x, y, r, r', p, p'. split; [exact I1|]. split; [exact I2|]. unfold fp_update_seq, update_seq. rewrite V1, V2. cbn [bind].
    rewrite !clear_suffix by exact Hsne. repeat split; assumption.
  Qed.
End top.
