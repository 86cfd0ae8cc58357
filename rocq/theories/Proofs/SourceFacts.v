(** Coins that change: what the estimator loses on each segment or leaf, put together. *)
From Coq Require Import Lra.
From Verif Require Import Model.KT Spec.SourceSpec Spec.PTWSpec.
From Verif Require Import Proofs.RealFacts Proofs.PyFacts Proofs.ProbFacts.
From Verif Require Import Proofs.KTFacts Proofs.KTBinFacts Proofs.KTRedundancy Proofs.PTWMixture Proofs.PTWProps.
Open Scope R_scope.

Notation syms := (map ev_sym).

Lemma unit_bits_ok evs : unit_bits evs -> Forall (ok_event [0; 1]%Z any_hist nonneg) evs.
Proof.
  intros H. eapply Forall_impl; [|exact H]. intros e [Hb Hw]. split; [|split; [exact I|unfold nonneg; lra]].
  destruct Hb as [-> | ->]; cbn; auto.
Qed.

Lemma unit_bits_bits evs : unit_bits evs -> bits (syms evs).
Proof. intros H. apply Forall_map. eapply Forall_impl; [|exact H]. intros e [Hb _]. exact Hb. Qed.

Lemma unit_bits_bit evs : unit_bits evs -> Forall bit_event evs.
Proof. intros H. eapply Forall_impl; [|exact H]. intros e [Hb _]. exact Hb. Qed.

(** KTBinary ignores the history. *)
Lemma ktb_unit evs : forall s, unit_bits evs -> seq_prob KTB_model s evs = seq_prob KTB_model s (unit_events (syms evs)).
Proof.
  induction evs as [|e evs IH]; intros s H; [reflexivity|]. inversion H as [|x y [Hb Hw] H']; subst.
  unfold unit_events. cbn [map seq_prob ev_sym ev_hist ev_wt]. rewrite Hw.
  change (m_update KTB_model s (ev_sym e) (ev_hist e) 1) with (m_update KTB_model s (ev_sym e) [] 1).
  destruct (m_update KTB_model s (ev_sym e) [] 1) as [[s1 l]|x]; [|reflexivity].
  rewrite (IH s1 H'). reflexivity.
Qed.

Lemma ktb_is_kt evs : Forall bit_event evs -> seq_prob KTB_model ktb_init evs = seq_prob KT_model (kt_init [0; 1]%Z) evs.
Proof.
  intros H. destruct (ktb_sim_run ktb_init (kt_init [0; 1]%Z) evs ktb_sim_init H) as [(b & k & l & E1 & E2 & _)|(x & E1 & E2)].
  - rewrite (seq_prob_run _ _ _ _ _ E1), (seq_prob_run _ _ _ _ _ E2). reflexivity.
  - assert (G : forall S (M : model S) es s, run M s es = Err x -> seq_prob M s es = 0).
    { intros S M. induction es as [|e es IH]; intros s; cbn [run seq_prob]; [discriminate|].
      destruct (m_update M s (ev_sym e) (ev_hist e) (ev_wt e)) as [[s1 l]|y]; cbn [bind]; [|reflexivity].
      destruct (run M s1 es) as [[s2 ls]|y] eqn:E; cbn [bind]; [discriminate|]. intros E'. injection E' as ->.
      rewrite (IH _ E). lra. }
    rewrite (G _ _ _ _ E1), (G _ _ _ _ E2). reflexivity.
Qed.

Lemma exp_learn n : (0 < n)%nat -> exp (- learn n) = / (2 * sqrt (INR n)).
Proof.
  intros Hn. destruct n as [|n]; [lia|]. unfold learn. assert (Hp : 0 < INR (S n)) by (apply lt_0_INR; lia).
  assert (0 < sqrt (INR (S n))) by (apply sqrt_lt_R0; exact Hp).
  rewrite exp_Ropp, exp_plus, exp_ln by lra. replace (/ 2 * ln (INR (S n))) with (ln (sqrt (INR (S n)))).
  2:{ apply half_ln_sqrt. exact Hp. }
  rewrite exp_ln by assumption. f_equal. lra.
Qed.

Lemma learn_nonneg n : 0 <= learn n.
Proof.
  destruct n as [|n]; cbn [learn]; [lra|]. assert (0 < ln 2) by (rewrite <- ln_1; apply ln_increasing; lra).
  assert (0 <= ln (INR (S n))); [|lra]. rewrite <- ln_1. apply ln_le; [lra|]. rewrite S_INR. pose proof (pos_INR n). lra.
Qed.

Lemma learn_mono a b : (a <= b)%nat -> learn a <= learn b.
Proof.
  intros H. destruct a as [|a]; [apply learn_nonneg|]. destruct b as [|b]; [lia|]. cbn [learn].
  assert (ln (INR (S a)) <= ln (INR (S b))); [|lra]. apply ln_le; [apply lt_0_INR; lia|apply le_INR; exact H].
Qed.

(** One coin: the estimator loses at most [learn n] nats on [n] tosses. *)
Lemma ktb_learn evs theta : unit_bits evs -> 0 <= theta <= 1 ->
  coin_prob theta (syms evs) * exp (- learn (length evs)) <= seq_prob KTB_model ktb_init evs.
Proof.
  intros H Ht. destruct evs as [|e evs].
  - cbn [map length learn seq_prob]. unfold coin_prob, occ. cbn [count_occ pow]. rewrite Ropp_0, exp_0. lra.
  - rewrite exp_learn by (cbn; lia). rewrite ktb_unit by exact H.
    rewrite ktb_is_kt. 2:{ apply Forall_map. eapply Forall_impl; [|apply (unit_bits_bits _ H)]. intros x Hx. exact Hx. }
    pose proof (kt_redundancy_prob (syms (e :: evs)) theta (unit_bits_bits _ H) ltac:(discriminate) Ht) as G.
    rewrite map_length in G. exact G.
Qed.

(** ** Coins that drift *)
Lemma coin_prob_cons theta x xs : x = 0%Z \/ x = 1%Z -> coin_prob theta (x :: xs) = coin theta x * coin_prob theta xs.
Proof.
  unfold coin_prob, coin, occ. cbn [count_occ]. intros [-> | ->]; cbn [Z.eqb Pos.eqb].
  - destruct (Z.eq_dec 0 0); [|congruence]. destruct (Z.eq_dec 0 1); [discriminate|]. cbn [pow]. lra.
  - destruct (Z.eq_dec 1 1); [|congruence]. destruct (Z.eq_dec 1 0); [discriminate|]. cbn [pow]. lra.
Qed.

Lemma drift_app theta xs : forall t ys, drift_prob theta t (xs ++ ys) = drift_prob theta t xs * drift_prob theta (t + length xs) ys.
Proof.
  induction xs as [|x xs IH]; intros t ys; cbn [app drift_prob length]; [rewrite Nat.add_0_r; lra|].
  rewrite IH. replace (t + S (length xs))%nat with (S t + length xs)%nat by lia. lra.
Qed.

Lemma drift_const theta c xs : forall t, bits xs -> (forall i, (i < length xs)%nat -> theta (t + i)%nat = c) ->
  drift_prob theta t xs = coin_prob c xs.
Proof.
  induction xs as [|x xs IH]; intros t Hb H; [unfold coin_prob, occ; cbn; lra|]. inversion Hb; subst.
  rewrite coin_prob_cons by assumption. cbn [drift_prob]. rewrite (IH (S t)); [|assumption|].
  - f_equal. f_equal. rewrite <- (H 0%nat) by (cbn; lia). f_equal. lia.
  - intros i Hi. rewrite <- (H (S i)) by (cbn; lia). f_equal. lia.
Qed.

Lemma drift_nonneg theta xs : (forall t, 0 <= theta t <= 1) -> forall t, 0 <= drift_prob theta t xs.
Proof.
  intros Ht. induction xs as [|x xs IH]; intros t; cbn [drift_prob]; [lra|].
  apply Rmult_le_pos; [|apply IH]. unfold coin. specialize (Ht t). destruct (x =? 1)%Z; lra.
Qed.

Lemma const_between theta cps s n : changes_at theta cps -> (forall c, In c cps -> (s < c)%nat -> (s + n <= c)%nat) ->
  forall i, (i < n)%nat -> theta (s + i)%nat = theta s.
Proof.
  intros Hc Hr. induction i as [|i IH]; intros Hi; [rewrite Nat.add_0_r; reflexivity|].
  rewrite <- IH by lia. replace (s + S i)%nat with (S (s + i)) by lia.
  destruct (Req_dec (theta (S (s + i))) (theta (s + i)%nat)) as [E|E]; [exact E|].
  apply Hc in E. specialize (Hr _ E ltac:(lia)). lia.
Qed.

(** What a partition that splits at every change loses against the source. *)
Lemma part_drift theta cps m N : (forall t, 0 <= theta t <= 1) -> changes_at theta cps ->
  forall p d s evs, (length evs <= N)%nat -> (length evs <= 2 ^ (m + d))%nat -> unit_bits evs ->
  respects cps (segments m d s p) ->
  drift_prob theta s (syms evs) * exp (- (INR (length (segments m d s p)) * learn N)) <=
  part_prob KTB_model (fun _ => ktb_init) m d s p evs.
Proof.
  intros Ht Hc.
  assert (HW : forall s n evs, (length evs <= N)%nat -> (length evs <= n)%nat -> unit_bits evs ->
     respects cps [(s, n)] ->
     drift_prob theta s (syms evs) * exp (- (INR 1 * learn N)) <= seq_prob KTB_model ktb_init evs).
  { intros s n evs HN Hlen Hu Hr. eapply Rle_trans; [|apply (ktb_learn evs (theta s) Hu (Ht s))].
    rewrite (drift_const theta (theta s)).
    - apply Rmult_le_compat_l.
      + unfold coin_prob. specialize (Ht s). apply Rmult_le_pos; apply pow_le; lra.
      + pose proof (learn_mono _ _ HN) as Hm. cbn [INR]. rewrite Rmult_1_l.
        destruct (Rle_lt_or_eq_dec _ _ Hm) as [Hlt|E]; [left; apply exp_increasing; lra|rewrite E; lra].
    - apply unit_bits_bits, Hu.
    - rewrite map_length. intros i Hi. apply (const_between theta cps s n Hc); [|lia].
      intros c Hin Hlt. specialize (Hr s n (or_introl eq_refl) c Hin). lia. }
  induction p as [|l IHl r IHr]; intros d s evs HN Hlen Hu Hr.
  - cbn [part_prob]. assert (E : segments m d s Whole = [(s, 2 ^ (m + d))%nat]) by (destruct d; reflexivity).
    rewrite E in *. cbn [length]. assert (E2 : part_prob KTB_model (fun _ => ktb_init) m d s Whole evs = seq_prob KTB_model ktb_init evs)
      by (destruct d; reflexivity).
    rewrite ?E2. apply (HW s _ evs HN Hlen Hu Hr).
  - destruct d as [|d]; [cbn [part_prob segments length] in *; apply (HW s _ evs HN Hlen Hu Hr)|].
    cbn [part_prob segments] in *. set (half := (2 ^ (m + d))%nat) in *.
    rewrite <- (firstn_skipn half evs) at 1. rewrite map_app, drift_app, app_length, plus_INR.
    assert (Hpow : (2 ^ (m + S d) = half + half)%nat)
      by (unfold half; replace (m + S d)%nat with (S (m + d)) by lia; cbn [Nat.pow]; lia).
    assert (Hu12 : unit_bits (firstn half evs) /\ unit_bits (skipn half evs))
      by (unfold unit_bits; rewrite <- Forall_app, firstn_skipn; exact Hu).
    destruct Hu12 as [Hu1 Hu2].
    assert (H1 : drift_prob theta s (syms (firstn half evs)) * exp (- (INR (length (segments m d s l)) * learn N)) <=
                 part_prob KTB_model (fun _ => ktb_init) m d s l (firstn half evs)).
    { apply IHl; auto; rewrite ?firstn_length; [lia|fold half; lia|].
      intros b n Hin. apply Hr, in_or_app. left; exact Hin. }
    assert (H2 : drift_prob theta (s + half) (syms (skipn half evs)) * exp (- (INR (length (segments m d (s + half) r)) * learn N)) <=
                 part_prob KTB_model (fun _ => ktb_init) m d (s + half) r (skipn half evs)).
    { apply IHr; auto; rewrite ?skipn_length; [lia|fold half; lia|].
      intros b n Hin. apply Hr, in_or_app. right; exact Hin. }
    assert (E : drift_prob theta (s + length (syms (firstn half evs))) (syms (skipn half evs)) =
                drift_prob theta (s + half) (syms (skipn half evs))).
    { rewrite map_length, firstn_length. destruct (le_lt_dec (length evs) half) as [Hle|Hlt].
      - rewrite skipn_all2 by exact Hle. reflexivity.
      - rewrite Nat.min_l by lia. reflexivity. }
    rewrite E.
    replace (- ((INR (length (segments m d s l)) + INR (length (segments m d (s + half) r))) * learn N))
      with (- (INR (length (segments m d s l)) * learn N) + - (INR (length (segments m d (s + half) r)) * learn N)) by lra.
    rewrite exp_plus.
    pose proof (drift_nonneg theta (syms (firstn half evs)) Ht s).
    pose proof (drift_nonneg theta (syms (skipn half evs)) Ht (s + half)).
    pose proof (exp_pos (- (INR (length (segments m d s l)) * learn N))).
    pose proof (exp_pos (- (INR (length (segments m d (s + half) r)) * learn N))).
    match goal with |- ?a * ?b * (?c * ?e) <= _ => replace (a * b * (c * e)) with ((a * c) * (b * e)) by lra end.
    apply Rmult_le_compat; try assumption; apply Rmult_le_pos; lra.
Qed.

(** A drifting coin is a probability distribution over the sequences of each length. *)
Lemma drift_total theta n : forall t, Rsum (map (drift_prob theta t) (tuples n [0; 1]%Z)) = 1.
Proof.
  induction n as [|n IH]; intros t; cbn [tuples].
  - cbn [map drift_prob]. apply Rsum_single.
  - cbn [flat_map]. rewrite app_nil_r, map_app, Rsum_app, !map_map. cbn [drift_prob coin Z.eqb Pos.eqb].
    rewrite !(Rsum_scal_l (drift_prob theta (S t))), IH. lra.
Qed.
