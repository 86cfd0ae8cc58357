(** How far rounding errors take CTW_KT from the exact context tree. *)
From Coq Require Import Lra Lia.
From Verif Require Import Spec.FloatsSpec Spec.Prob Spec.SeqSpec Spec.Ops Model.KT.
From Verif Require Import Proofs.ProbFacts Proofs.KTFacts Proofs.KTBinFacts Proofs.CTWKTFacts.
From Verif Require Import Proofs.RealFacts Proofs.KTRedundancy Proofs.CTWFacts Proofs.CTWTop Proofs.CTWProps Proofs.SeqFacts.
From Verif Require Import Proofs.PomdpCTW Proofs.FloatsFacts.
Open Scope R_scope.

Definition k_lp (k : knode) : R := let '(KNode _ _ _ _ lp _ _) := k in lp.
Definition o_lp (o : option knode) : R := match o with Some k => k_lp k | None => 0 end.
Definition bit (a : Z) : Prop := a = 0%Z \/ a = 1%Z.

Section rounding.
  Variables (F : floats) (u big : R) (max : nat).
  Hypothesis HF : accurate F u big max.
  Hypothesis Hu : 0 <= u <= / 64.
  Variables (N D : nat) (L B : R).
  Hypothesis HN : (0 < N)%nat.
  Hypothesis HL : L = ln (2 * INR N + 2).
  Hypothesis HB : INR N * L + 2 <= B.
  Hypothesis Hmax : (2 * N + 2 <= max)%nat.
  Hypothesis Hbig : 2 * B + 6 <= big.
  Definition Kc := 2 * B + 6.
  Definition K := 4 * B + 22.
  Definition Kd (d : nat) := (INR d + 1) * K.
  Hypothesis Hsmall : INR N * u * Kd D <= 1.

  Lemma INR1 : 1 <= INR N.
  Proof. apply (le_INR 1). lia. Qed.
  Lemma L0 : 0 < L <= B - 2.
  Proof.
    pose proof INR1. assert (0 < L) by (rewrite HL, <- ln_1; apply ln_increasing; lra).
    split; [assumption|]. nra.
  Qed.
  Lemma K0 : 30 <= K. Proof. pose proof L0. unfold K. lra. Qed.
  Lemma Kd_S d : Kd (S d) = Kd d + K.
  Proof. unfold Kd. rewrite S_INR. lra. Qed.
  Lemma Kd_K d : K <= Kd d.
  Proof. unfold Kd. pose proof (pos_INR d). pose proof K0. nra. Qed.

  Lemma small n d : (n <= N)%nat -> (d <= D)%nat -> INR n * u * Kd d <= 1.
  Proof.
    intros Hn Hd. apply Rle_trans with (INR N * u * Kd D); [|exact Hsmall].
    apply le_INR in Hn, Hd. pose proof (pos_INR n). pose proof (pos_INR d). pose proof K0.
    assert (Kd d <= Kd D) by (unfold Kd; nra). assert (0 <= Kd d) by (pose proof (Kd_K d); lra).
    rewrite !Rmult_assoc. apply Rmult_le_compat; [lra| |lra|].
    - apply Rmult_le_pos; lra.
    - apply Rmult_le_compat_l; lra.
  Qed.
  Lemma uK : u * K <= 1.
  Proof.
    apply Rle_trans with (INR N * u * Kd D); [|exact Hsmall]. pose proof INR1. pose proof (Kd_K D). pose proof K0.
    rewrite Rmult_assoc. assert (0 <= u * K) by (apply Rmult_le_pos; lra).
    assert (u * K <= u * Kd D) by (apply Rmult_le_compat_l; lra). nra.
  Qed.

  (** one KT estimate *)
  Lemma kt_err n j k : (n < N)%nat -> (0 < j)%nat -> (0 < k)%nat -> (j + k = 2 * n + 2)%nat ->
    exists t, fp_div F (INR j / 2) (INR (j + k) / 2) = Ok (f_div F (INR j / 2) (INR (j + k) / 2)) /\
      fp_log F (f_div F (INR j / 2) (INR (j + k) / 2)) = Ok t /\
      py_div (INR j / 2) (INR (j + k) / 2) = Ok (INR j / INR (j + k)) /\
      py_log (INR j / INR (j + k)) = Ok (ln (INR j / INR (j + k))) /\
      - L <= ln (INR j / INR (j + k)) <= 0 /\
      Rabs (t - ln (INR j / INR (j + k))) <= u * (L + 4).
  Proof.
    intros Hn Hj Hk Hjk. set (q := INR j / INR (j + k)). set (q' := f_div F _ _).
    assert (Pj : 1 <= INR j) by (apply (le_INR 1); lia).
    assert (Pk : 1 <= INR k) by (apply (le_INR 1); lia).
    assert (Pjk : INR (j + k) = INR j + INR k) by apply plus_INR.
    assert (Pn : INR (j + k) <= 2 * INR N).
    { rewrite Hjk, plus_INR, mult_INR. assert (INR (n + 1) <= INR N) by (apply le_INR; lia). rewrite plus_INR in H. cbn in *. lra. }
    assert (Hq : 0 < q <= 1).
    { unfold q. split; [apply Rdiv_lt_0_compat; lra|]. apply Rmult_le_reg_r with (INR (j + k)); [lra|].
      unfold Rdiv. rewrite Rmult_assoc, Rinv_l by lra. lra. }
    assert (Hq' : Rabs (q' - q) <= u * q) by (apply (acc_div _ _ _ _ HF); lia).
    apply abs_le in Hq'. assert (Q' : q / 2 <= q') by nra.
    assert (Lq : - L <= ln q <= 0).
    { split; [|rewrite <- ln_1; apply ln_le; lra].
      rewrite HL, <- ln_Rinv by lra. apply ln_le; [apply Rinv_0_lt_compat; lra|].
      unfold q. apply Rle_trans with (/ INR (j + k)); [apply Rinv_le_contravar; lra|].
      unfold Rdiv. pose proof (Rinv_0_lt_compat (INR (j + k)) ltac:(lra)). nra. }
    assert (Hl : Rabs (ln q' - ln q) <= 2 * u).
    { eapply Rle_trans; [apply (ln_lip _ _ (q / 2)); lra|].
      assert (Rabs (q' - q) <= u * q) by (apply Rabs_le; lra).
      apply Rmult_le_reg_r with (q / 2); [lra|]. unfold Rdiv at 1. rewrite Rmult_assoc, Rinv_l by lra. lra. }
    pose proof (acc_log _ _ _ _ HF q' ltac:(lra)) as Ht.
    apply abs_le in Hl. pose proof L0 as [L1 L2].
    assert (Hlq : Rabs (ln q') <= L + 1) by (apply Rabs_le; lra).
    assert (Ht2 : Rabs (f_log F q' - ln q') <= u * (1 + (L + 1))) by (eapply Rle_trans; [exact Ht|]; apply Rmult_le_compat_l; lra).
    apply abs_le in Ht2.
    exists (f_log F q'). unfold fp_div, fp_log, py_div, py_log.
    destruct (Req_EM_T (INR (j + k) / 2) 0); [lra|]. destruct (Rlt_dec 0 q'); [|lra]. destruct (Rlt_dec 0 q); [|lra].
    split; [reflexivity|]. split; [reflexivity|]. split; [f_equal; unfold q; field; lra|]. split; [reflexivity|].
    split; [exact Lq|]. apply Rabs_le. lra.
  Qed.

  (** [x], computed with rounding, is close to the exact node [y]; both have been updated [n] times. *)
  Fixpoint near (d n : nat) (x y : knode) : Prop :=
    let '(KNode c0 c1 bx cx lx x0 x1) := x in
    let '(KNode c0' c1' by' cy ly y0 y1) := y in
    (exists j k, c0 = INR j / 2 /\ c0' = INR j / 2 /\ c1 = INR k / 2 /\ c1' = INR k / 2 /\
       (0 < j)%nat /\ (0 < k)%nat /\ (j + k = 2 * n + 2)%nat) /\
    Rabs (bx - by') <= INR n * u * Kc /\ - (INR n * L) <= by' <= 0 /\
    match d with
    | O => lx = bx /\ ly = by'
    | S d' =>
        (exists n0 n1, (n0 + n1 = n)%nat /\
           match x0, y0 with Some a, Some b => near d' n0 a b | None, None => n0 = 0%nat | _, _ => False end /\
           match x1, y1 with Some a, Some b => near d' n1 a b | None, None => n1 = 0%nat | _, _ => False end) /\
        cy = o_lp y0 + o_lp y1 /\ Rabs (cx - (o_lp x0 + o_lp x1)) <= INR n * u * Kc /\
        ly = log_0_5 + logsumexp2 by' cy /\ Rabs (lx - ly) <= INR n * u * Kd d
    end.
  Definition near_o (d n : nat) (x y : option knode) : Prop :=
    match x, y with Some a, Some b => near d n a b | None, None => n = 0%nat | _, _ => False end.

  Lemma near_new d : near d 0 new_knode new_knode.
  Proof.
    assert (Z : forall z, 0 * u * z = 0) by (intros; ring).
    destruct d as [|d]; cbn [near new_knode]; (split; [exists 1%nat, 1%nat; cbn; repeat split; try lra; lia|]);
      cbn [INR]; rewrite ?Z, !Rminus_0_r, !Rabs_R0; (split; [lra|]); (split; [lra|]).
    - auto.
    - split; [exists 0%nat, 0%nat; auto|]. cbn [o_lp]. rewrite Rplus_0_r, Rminus_0_r, Rabs_R0.
      split; [reflexivity|]. split; [lra|]. rewrite ?mix_zero. split; [reflexivity|lra].
  Qed.

  Lemma ln2_le : ln 2 <= 1 /\ log_0_5 = - ln 2.
  Proof. split; [apply ln2_bounds|]. unfold log_0_5. apply ln_Rinv. lra. Qed.

  Lemma mix_bounds b c m : - m <= b <= 0 -> c <= 0 -> - m - 1 <= log_0_5 + logsumexp2 b c <= 0.
  Proof.
    intros Hb Hc. destruct ln2_le as [H2 H3]. split.
    - rewrite H3, logsumexp2_spec. pose proof (exp_pos b). pose proof (exp_pos c).
      assert (b <= ln (exp b + exp c)) by (rewrite <- (ln_exp b) at 1; apply ln_le; lra). lra.
    - rewrite <- ln_1, <- (ln_exp (log_0_5 + logsumexp2 b c)). apply ln_le; [apply exp_pos|].
      rewrite mix_exp. assert (exp b <= 1) by (rewrite <- exp_0; apply exp_le_mono; lra).
      assert (exp c <= 1) by (rewrite <- exp_0; apply exp_le_mono; lra). lra.
  Qed.

  (** the value of a node is close, and of moderate size *)
  Lemma near_lp d n x y : near d n x y ->
    Rabs (k_lp x - k_lp y) <= INR n * u * Kd d /\ - (INR n * L) - 1 <= k_lp y <= 0.
  Proof.
    revert n x y; induction d as [|d IH]; intros n [c0 c1 bx cx lx x0 x1] [c0' c1' by' cy ly y0 y1];
      cbn [near k_lp]; intros (_ & Hb & Rb & H).
    - destruct H as [-> ->]. split; [|lra]. eapply Rle_trans; [exact Hb|]. pose proof (pos_INR n).
      assert (0 <= INR n * u) by (apply Rmult_le_pos; lra). apply Rmult_le_compat_l; [assumption|].
      pose proof (Kd_K 0). pose proof L0. unfold Kc, K in *. lra.
    - destruct H as ((n0 & n1 & Hn & H0 & H1) & Hc & _ & -> & Hl). split; [exact Hl|].
      apply mix_bounds; [exact Rb|]. rewrite Hc.
      assert (A0 : o_lp y0 <= 0).
      { destruct x0, y0; cbn [o_lp]; try contradiction; [|lra]. apply IH in H0 as [_ ?]. lra. }
      assert (A1 : o_lp y1 <= 0).
      { destruct x1, y1; cbn [o_lp]; try contradiction; [|lra]. apply IH in H1 as [_ ?]. lra. }
      lra.
  Qed.

  Lemma near_o_lp d n x y : near_o d n x y ->
    Rabs (o_lp x - o_lp y) <= INR n * u * Kd d /\ - (INR n * L) - 1 <= o_lp y <= 0.
  Proof.
    unfold near_o. destruct x as [x|], y as [y|]; cbn [o_lp]; try contradiction; [apply near_lp|].
    intros ->. cbn [INR]. rewrite Rminus_0_r, Rabs_R0. lra.
  Qed.

  Lemma near_get d n x y : near_o d n x y ->
    near d n (match x with Some a => a | None => new_knode end) (match y with Some a => a | None => new_knode end) /\
    k_lp (match x with Some a => a | None => new_knode end) = o_lp x /\
    k_lp (match y with Some a => a | None => new_knode end) = o_lp y.
  Proof.
    unfold near_o. destruct x as [x|], y as [y|]; try contradiction; [auto|]. intros ->. split; [apply near_new|auto].
  Qed.

  Lemma half_add j k : (j + k <= max)%nat -> f_add F (INR j / 2) (INR k / 2) = INR (j + k) / 2 /\
    INR j / 2 + INR k / 2 = INR (j + k) / 2.
  Proof. intros H. split; [apply (acc_half _ _ _ _ HF); exact H|]. rewrite plus_INR. lra. Qed.
  Lemma half_one j : (j + 2 <= max)%nat -> f_add F (INR j / 2) 1 = INR (j + 2) / 2 /\ INR j / 2 + 1 = INR (j + 2) / 2.
  Proof. intros H. replace 1 with (INR 2 / 2) by (cbn; lra). apply half_add. exact H. Qed.

  (** the counts and the base term *)
  Lemma base_step n (b : bool) c0 c1 c0' c1' bx by' : (n < N)%nat ->
    (exists j k, c0 = INR j / 2 /\ c0' = INR j / 2 /\ c1 = INR k / 2 /\ c1' = INR k / 2 /\
       (0 < j)%nat /\ (0 < k)%nat /\ (j + k = 2 * n + 2)%nat) ->
    Rabs (bx - by') <= INR n * u * Kc -> - (INR n * L) <= by' <= 0 ->
    exists q t q' l,
      fp_div F (if b then c1 else c0) (f_add F c0 c1) = Ok q /\ fp_log F q = Ok t /\
      py_div (if b then c1' else c0') (c0' + c1') = Ok q' /\ py_log q' = Ok l /\
      (exists j k, (if b then c0 else f_add F c0 1) = INR j / 2 /\ (if b then c0' else c0' + 1) = INR j / 2 /\
         (if b then f_add F c1 1 else c1) = INR k / 2 /\ (if b then c1' + 1 else c1') = INR k / 2 /\
         (0 < j)%nat /\ (0 < k)%nat /\ (j + k = 2 * S n + 2)%nat) /\
      Rabs (f_add F bx t - (by' + l)) <= INR (S n) * u * Kc /\ - (INR (S n) * L) <= by' + l <= 0.
  Proof.
    intros Hn (j & k & -> & -> & -> & -> & Pj & Pk & Hjk) Hb Rb.
    destruct (half_add j k ltac:(lia)) as [-> ->].
    assert (Hadd : forall t l, - L <= l <= 0 -> Rabs (t - l) <= u * (L + 4) ->
      Rabs (f_add F bx t - (by' + l)) <= INR (S n) * u * Kc /\ - (INR (S n) * L) <= by' + l <= 0).
    { intros t l Hl Ht. rewrite S_INR. assert (Hn1 : INR n + 1 <= INR N) by (rewrite <- S_INR; apply le_INR; lia).
      pose proof (pos_INR n) as P. pose proof L0 as [L1 L2]. pose proof uK as HK. pose proof (small n 0 ltac:(lia) ltac:(lia)) as Sm.
      assert (HnL : (INR n + 1) * L <= B - 2) by nra.
      split; [|lra]. apply abs_le in Hb, Ht.
      assert (Hb1 : INR n * u * Kc <= 1).
      { eapply Rle_trans; [|exact Sm]. apply Rmult_le_compat_l; [apply Rmult_le_pos; lra|]. pose proof (Kd_K 0). unfold K, Kc in *. lra. }
      assert (Hu4 : u * (L + 4) <= 1) by (unfold K in HK; nra).
      assert (Ha : Rabs (f_add F bx t - (bx + t)) <= u * B).
      { apply (add_err F u big max HF Hu); [apply Rabs_le; lra|lra]. }
      apply abs_le in Ha. apply Rabs_le. unfold Kc in *.
      assert (u * (L + 4) + u * B <= u * (2 * B + 6)) by (rewrite <- Rmult_plus_distr_l; apply Rmult_le_compat_l; lra).
      lra. }
    destruct b.
    - destruct (kt_err n k j Hn Pk Pj ltac:(lia)) as (t & E1 & E2 & E3 & E4 & E5 & E6). rewrite (Nat.add_comm k j) in *.
      exists (f_div F (INR k / 2) (INR (j + k) / 2)), t, (INR k / INR (j + k)), (ln (INR k / INR (j + k))).
      destruct (half_one k ltac:(lia)) as [-> ->].
      split; [exact E1|]. split; [exact E2|]. split; [exact E3|]. split; [exact E4|].
      split; [exists j, (k + 2)%nat; repeat split; lia|]. apply Hadd; assumption.
    - destruct (kt_err n j k Hn Pj Pk Hjk) as (t & E1 & E2 & E3 & E4 & E5 & E6).
      exists (f_div F (INR j / 2) (INR (j + k) / 2)), t, (INR j / INR (j + k)), (ln (INR j / INR (j + k))).
      destruct (half_one j ltac:(lia)) as [-> ->].
      split; [exact E1|]. split; [exact E2|]. split; [exact E3|]. split; [exact E4|].
      split; [exists (j + 2)%nat, k; repeat split; lia|]. apply Hadd; assumption.
  Qed.

  Lemma bit_ok a : bit a -> exists b, bit_index a = Ok b.
  Proof. intros [-> | ->]; eexists; reflexivity. Qed.

  (** mixing the two sides *)
  Lemma mix_err d n bx by' cx cy : (S n <= N)%nat -> (S d <= D)%nat ->
    - (INR (S n) * L) <= by' <= 0 -> - (INR (S n) * L) - 2 <= cy <= 0 ->
    Rabs (bx - by') <= INR (S n) * u * Kc -> Rabs (cx - cy) <= INR (S n) * u * (Kc + Kd d) ->
    Rabs (f_add F (fp_log_0_5 F) (fp_logsumexp2 F bx cx) - (log_0_5 + logsumexp2 by' cy)) <= INR (S n) * u * Kd (S d).
  Proof.
    intros Hn Hd Hb Hc Eb Ec. pose proof (small (S n) (S d) Hn Hd) as Sm. rewrite Kd_S in *.
    set (m := INR (S n)) in *. assert (Hm : 1 <= m <= INR N) by (split; [apply (le_INR 1); lia|apply le_INR; exact Hn]).
    pose proof L0 as [L1 L2]. pose proof uK as HK. pose proof (Kd_K d) as Hk. pose proof K0 as Hk0.
    assert (HmL : m * L <= B - 2) by nra.
    assert (Mu : 0 <= m * u) by (apply Rmult_le_pos; lra).
    assert (Kck : Kc + (2 * B + 16) = K) by (unfold Kc, K; lra).
    set (e := m * u * (Kc + Kd d)) in *.
    assert (He : e + m * u * (2 * B + 16) = m * u * (Kd d + K)) by (unfold e; rewrite <- Kck; ring).
    assert (Hmu : u * (2 * B + 16) <= m * u * (2 * B + 16)) by (apply Rmult_le_compat_r; nra).
    assert (He1 : e <= 1) by nra.
    assert (Eb2 : Rabs (bx - by') <= e).
    { eapply Rle_trans; [exact Eb|]. apply Rmult_le_compat_l; lra. }
    pose proof (lse2_lip _ _ _ _ _ Eb2 Ec) as Hlip.
    apply abs_le in Eb2, Ec, Hlip.
    assert (Hlse : Rabs (fp_logsumexp2 F bx cx - logsumexp2 bx cx) <= u * (B + 1 + 11)).
    { apply (lse2_err F u big max HF Hu); [apply Rabs_le; lra|apply Rabs_le; lra|lra]. }
    assert (Hh : Rabs (fp_log_0_5 F - log_0_5) <= u * 2).
    { unfold fp_log_0_5, log_0_5. eapply Rle_trans; [apply (acc_log _ _ _ _ HF); lra|]. apply Rmult_le_compat_l; [lra|].
      destruct ln2_le as [H2 H3]. fold log_0_5. rewrite H3, Rabs_Ropp, Rabs_right; [lra|]. pose proof ln2_bounds. lra. }
    apply abs_le in Hlse, Hh.
    pose proof (mix_bounds by' cy (m * L) ltac:(lra) ltac:(lra)) as Hmix.
    assert (Hu1 : u * (B + 14) <= 1) by (unfold K in HK; nra).
    assert (Ha : Rabs (f_add F (fp_log_0_5 F) (fp_logsumexp2 F bx cx) - (fp_log_0_5 F + fp_logsumexp2 F bx cx)) <= u * (B + 2)).
    { apply (add_err F u big max HF Hu); [apply Rabs_le; lra|lra]. }
    apply abs_le in Ha. apply Rabs_le. lra.
  Qed.

  Lemma lp_size d n x y : near d n x y -> (n <= N)%nat -> (d <= D)%nat -> - B <= k_lp x <= 1.
  Proof.
    intros H Hn Hd. apply near_lp in H as [H1 H2]. pose proof (small n d Hn Hd). apply abs_le in H1.
    pose proof L0 as [L1 L2]. apply le_INR in Hn. pose proof (pos_INR n). assert (INR n * L <= INR N * L) by (apply Rmult_le_compat_r; lra). lra.
  Qed.
  Lemma diff_err d n x y x' y' : near d n x y -> near d (S n) x' y' -> (S n <= N)%nat -> (d <= D)%nat ->
    Rabs (f_sub F (k_lp x') (k_lp x) - (k_lp x' - k_lp x)) <= u * (B + 2).
  Proof.
    intros H H' Hn Hd. pose proof (lp_size d n x y H ltac:(lia) Hd). pose proof (lp_size d (S n) x' y' H' Hn Hd).
    pose proof L0. apply (sub_err F u big max HF Hu); [apply Rabs_le; lra|lra].
  Qed.

  (** one update *)
  Lemma near_step : forall ctx n x y a, (length ctx <= D)%nat -> (S n <= N)%nat ->
    Forall bit ctx -> bit a -> near (length ctx) n x y ->
    exists x' y', fknode_update F ctx x a 1 = Ok (x', f_sub F (k_lp x') (k_lp x)) /\
      knode_update ctx y a 1 = Ok (y', k_lp y' - k_lp y) /\ near (length ctx) (S n) x' y'.
  Proof.
    induction ctx as [|c ctx IH]; intros n [c0 c1 bx cx lx x0 x1] [c0' c1' by' cy ly y0 y1] a Hd Hn Hctx Ha;
      cbn [near length fknode_update knode_update k_lp]; intros (Hcnt & Hb & Rb & H).
    - destruct (bit_ok a Ha) as [b ->]. cbn [bind].
      destruct (base_step n b _ _ _ _ _ _ ltac:(lia) Hcnt Hb Rb) as (q & t & q' & l & E1 & E2 & E3 & E4 & Hc' & Hb' & Rb').
      rewrite E1, E3; cbn [bind]; rewrite E2, E4; cbn [bind].
      eexists (KNode _ _ _ _ _ _ _), (KNode _ _ _ _ _ _ _). cbn [k_lp]. split; [reflexivity|]. split; [reflexivity|]. cbn [near]. auto.
    - destruct (bit_ok a Ha) as [b ->]. cbn [bind].
      destruct (base_step n b _ _ _ _ _ _ ltac:(lia) Hcnt Hb Rb) as (q & t & q' & l & E1 & E2 & E3 & E4 & Hc' & Hb' & Rb').
      rewrite E1, E3; cbn [bind]; rewrite E2, E4; cbn [bind].
      inversion Hctx as [|? ? Hbc Hctx']; subst. destruct (bit_ok c Hbc) as [i ->]. cbn [bind].
      destruct H as ((n0 & n1 & Hnn & H0 & H1) & -> & Hcx & -> & Hl). fold (near_o (length ctx) n0 x0 y0) in H0.
      fold (near_o (length ctx) n1 x1 y1) in H1.
      cbn [length] in Hd.
      (* the child that is updated and the other one *)
      assert (Hchild : exists xi yi xo yo ni no, (if i then x1 else x0) = xi /\ (if i then y1 else y0) = yi /\
        (if i then x0 else x1) = xo /\ (if i then y0 else y1) = yo /\ near_o (length ctx) ni xi yi /\ near_o (length ctx) no xo yo /\
        (ni + no = n)%nat /\ o_lp x0 + o_lp x1 = o_lp xi + o_lp xo /\ o_lp y0 + o_lp y1 = o_lp yi + o_lp yo /\
        (n0 = if i then no else ni) /\ (n1 = if i then ni else no)).
      { destruct i; [exists x1, y1, x0, y0, n1, n0|exists x0, y0, x1, y1, n0, n1]; repeat split; auto; try lra; lia. }
      destruct Hchild as (xi & yi & xo & yo & ni & no & -> & -> & Exo & Eyo & Hi & Ho & Hno & Sx & Sy & En0 & En1).
      destruct (near_get _ _ _ _ Hi) as (Gi & Gx & Gy).
      destruct (IH ni _ _ a ltac:(lia) ltac:(lia) Hctx' Ha Gi) as (xi' & yi' & Ux & Uy & Ni').
      rewrite Ux, Uy. cbn [bind].
      pose proof (diff_err _ _ _ _ _ _ Gi Ni' ltac:(lia) ltac:(lia)) as Hdiff.
      rewrite Gx in Hdiff |- *. rewrite Gy. clear Ux Uy Gx Gy Gi.
      set (r := f_sub F (k_lp xi') (o_lp xi)) in *.
      eexists (KNode _ _ _ _ _ _ _), (KNode _ _ _ _ _ _ _). cbn [k_lp]. split; [reflexivity|]. split; [reflexivity|].
      (* the values of the children *)
      pose proof (near_o_lp _ _ _ _ Hi) as [Ii Ri]. pose proof (near_o_lp _ _ _ _ Ho) as [Io Ro].
      pose proof (near_lp _ _ _ _ Ni') as [Ii' Ri'].
      pose proof (small ni (length ctx) ltac:(lia) ltac:(lia)) as S1.
      pose proof (small no (length ctx) ltac:(lia) ltac:(lia)) as S2.
      pose proof (small (S ni) (length ctx) ltac:(lia) ltac:(lia)) as S3.
      assert (Enat : INR ni + INR no = INR n) by (rewrite <- plus_INR; f_equal; exact Hno).
      assert (Hcx1 : INR n * u * Kc <= 1).
      { eapply Rle_trans; [|exact (small n 0 ltac:(lia) ltac:(lia))].
        apply Rmult_le_compat_l; [apply Rmult_le_pos; [apply pos_INR|lra]|]. pose proof (Kd_K 0). pose proof L0. unfold K, Kc in *. lra. }
      pose proof L0 as [L1 L2]. pose proof uK as HK.
      assert (HnL : (INR n + 1) * L <= B - 2).
      { rewrite <- S_INR. apply le_INR in Hn. nra. }
      assert (HuB : u * (B + 2) <= 1) by (unfold K in HK; nra).
      rewrite Sx in Hcx. rewrite Sy in *. apply abs_le in Hcx, Ii, Io, Ii', Hdiff.
      rewrite S_INR in Ri', Ii'.
      assert (Hrange : - (INR (S n) * L) - 2 <= k_lp yi' + o_lp yo <= 0).
      { rewrite S_INR, <- Enat. lra. }
      assert (Hmag : - B <= k_lp yi' + o_lp yo) by (rewrite S_INR in Hrange; lra).
      set (u1 := INR ni * u * Kd (length ctx)) in *. set (u2 := INR no * u * Kd (length ctx)) in *.
      assert (U3 : (INR ni + 1) * u * Kd (length ctx) <= 1) by (rewrite <- S_INR; exact S3).
      set (u3 := (INR ni + 1) * u * Kd (length ctx)) in *.
      assert (Hadd : Rabs (f_add F cx r - (cx + r)) <= u * (B + 4)).
      { apply (add_err F u big max HF Hu); [apply Rabs_le; lra|]. lra. }
      apply abs_le in Hadd.
      assert (Hcx' : Rabs (f_add F cx r - (k_lp xi' + o_lp xo)) <= INR (S n) * u * Kc).
      { rewrite S_INR. unfold Kc in *. apply Rabs_le. lra. }
      cbn [near]. split; [exact Hc'|]. split; [exact Hb'|]. split; [exact Rb'|].
      replace (o_lp yi + o_lp yo + (k_lp yi' - o_lp yi)) with (k_lp yi' + o_lp yo) by ring.
      split.
      { exists (if i then no else S ni), (if i then S ni else no).
        destruct i; subst; (split; [lia|]); split; try exact Ni'; try exact Ho. }
      split; [destruct i; subst; cbn [o_lp]; lra|].
      split; [destruct i; subst; cbn [o_lp]; [rewrite Rplus_comm|]; exact Hcx'|].
      split; [reflexivity|].
      apply mix_err; [exact Hn|exact Hd|exact Rb'|exact Hrange|exact Hb'|].
      apply abs_le in Hcx'. apply Rabs_le. rewrite Rmult_plus_distr_l.
      assert (U : u3 + u2 = INR (S n) * u * Kd (length ctx)) by (unfold u3, u2; rewrite S_INR, <- Enat; ring). lra.
  Qed.

  Hypothesis HD : (0 < D)%nat.

  Definition near_m (n : nat) (x y : ctwkt) : Prop :=
    ck_depth x = Z.of_nat D /\ ck_depth y = Z.of_nat D /\ near D n (ck_tree x) (ck_tree y).

  Lemma model_step n x y a h : near_m n x y -> (S n <= N)%nat -> bit a -> incl h [0; 1]%Z ->
    exists x' y', m_update (FCTWKT_model F) x a h 1 = Ok (x', f_sub F (k_lp (ck_tree x')) (k_lp (ck_tree x))) /\
      m_update CTWKT_model y a h 1 = Ok (y', k_lp (ck_tree y') - k_lp (ck_tree y)) /\ near_m (S n) x' y'.
  Proof.
    intros (Dx & Dy & H) Hn Ha Hh. set (c := rev (mkcontext (Z.of_nat D) h)).
    assert (Hl : length c = D) by (unfold c; rewrite rev_length; apply mkcontext_length; exact HD).
    assert (Hc : Forall bit c).
    { apply Forall_forall. intros z Hz. unfold c in Hz. rewrite mkcontext_recent in Hz by exact HD.
      apply (recent_incl [0; 1]%Z D h ltac:(cbn; auto) Hh) in Hz. cbn in Hz. unfold bit. destruct Hz as [<- | [<- | []]]; auto. }
    rewrite <- Hl in H at 1.
    destruct (near_step c n _ _ a ltac:(lia) Hn Hc Ha H) as (x' & y' & Ux & Uy & H').
    exists (CTWKT (Z.of_nat D) x'), (CTWKT (Z.of_nat D) y').
    cbn [FCTWKT_model CTWKT_model m_update fctwkt_update ctwkt_update]. unfold fctwkt_update, ctwkt_update.
    rewrite Dx, Dy. fold c. rewrite Ux, Uy. cbn [bind ck_tree]. rewrite Hl in H'. unfold near_m. auto.
  Qed.

  Lemma seq_near : forall seq n x y h rx, near_m n x y -> (n + length seq <= N)%nat -> incl seq [0; 1]%Z -> incl h [0; 1]%Z ->
    Rabs (rx - k_lp (ck_tree x)) <= INR n * u * (2 * B + 5) ->
    exists x' y' rx', fp_update_seq_loop F (FCTWKT_model F) x seq h 1 rx = Ok (x', h ++ seq, rx') /\
      update_seq_loop CTWKT_model y seq h 1 (k_lp (ck_tree y)) = Ok (y', h ++ seq, k_lp (ck_tree y')) /\
      near_m (n + length seq) x' y' /\
      Rabs (rx' - k_lp (ck_tree x')) <= INR (n + length seq) * u * (2 * B + 5).
  Proof.
    induction seq as [|a seq IH]; intros n x y h rx H Hn Hs Hh Hr; cbn [length fp_update_seq_loop update_seq_loop] in *.
    - exists x, y, rx. rewrite app_nil_r, Nat.add_0_r. auto.
    - assert (Ha : bit a) by (specialize (Hs a (or_introl eq_refl)); cbn in Hs; unfold bit; destruct Hs as [<- | [<- | []]]; auto).
      destruct (model_step n x y a h H ltac:(lia) Ha Hh) as (x1 & y1 & Ux & Uy & H1).
      rewrite Ux, Uy. cbn [bind].
      assert (Hr1 : Rabs (f_add F rx (f_sub F (k_lp (ck_tree x1)) (k_lp (ck_tree x))) - k_lp (ck_tree x1)) <= INR (S n) * u * (2 * B + 5)).
      { destruct H as (_ & _ & H), H1 as (_ & _ & H1).
        pose proof (diff_err D n _ _ _ _ H H1 ltac:(lia) ltac:(lia)) as Hd.
        pose proof (lp_size D (S n) _ _ H1 ltac:(lia) ltac:(lia)) as Hz.
        pose proof L0 as [L1 L2]. pose proof uK as HK. pose proof (small n 0 ltac:(lia) ltac:(lia)) as S1.
        assert (Hr0 : INR n * u * (2 * B + 5) <= 1).
        { eapply Rle_trans; [|exact S1]. apply Rmult_le_compat_l; [apply Rmult_le_pos; [apply pos_INR|lra]|].
          pose proof (Kd_K 0). unfold K in *. lra. }
        assert (HuB : u * (B + 2) <= 1) by (unfold K in HK; nra).
        apply abs_le in Hr, Hd. set (r := f_sub F _ _) in *.
        assert (Ha2 : Rabs (f_add F rx r - (rx + r)) <= u * (B + 3)) by (apply (add_err F u big max HF Hu); [apply Rabs_le; lra|lra]).
        apply abs_le in Ha2. rewrite S_INR. apply Rabs_le. lra. }
      replace (k_lp (ck_tree y) + (k_lp (ck_tree y1) - k_lp (ck_tree y))) with (k_lp (ck_tree y1)) by ring.
      destruct (IH (S n) x1 y1 (h ++ [a]) _ H1 ltac:(lia) (fun z Hz => Hs z (or_intror Hz))
        ltac:(intros z Hz; apply in_app_or in Hz as [Hz|[<- | []]]; [exact (Hh z Hz)|apply Hs; left; reflexivity]) Hr1)
        as (x' & y' & rx' & E1 & E2 & E3 & E4).
      exists x', y', rx'. rewrite <- app_assoc in E1, E2. cbn [app] in E1, E2. replace (n + S (length seq))%nat with (S n + length seq)%nat by lia.
      auto.
  Qed.

  Lemma near_init : near_m 0 (ctwkt_init (Z.of_nat D)) (ctwkt_init (Z.of_nat D)).
  Proof. split; [reflexivity|]. split; [reflexivity|]. apply near_new. Qed.

  Lemma reached seq h : (length seq <= N)%nat -> incl seq [0; 1]%Z -> incl h [0; 1]%Z ->
    exists x' y' rx', fp_update_seq_loop F (FCTWKT_model F) (ctwkt_init (Z.of_nat D)) seq h 1 0 = Ok (x', h ++ seq, rx') /\
      update_seq_loop CTWKT_model (ctwkt_init (Z.of_nat D)) seq h 1 0 = Ok (y', h ++ seq, k_lp (ck_tree y')) /\
      near_m (length seq) x' y' /\
      Rabs (rx' - k_lp (ck_tree x')) <= INR (length seq) * u * (2 * B + 5).
  Proof.
    intros Hn Hs Hh. apply (seq_near seq 0 _ _ h 0 near_init Hn Hs Hh). cbn. rewrite Rminus_0_r, Rabs_R0. lra.
  Qed.

  Lemma total_err n x y rx : near_m n x y -> (n <= N)%nat -> Rabs (rx - k_lp (ck_tree x)) <= INR n * u * (2 * B + 5) ->
    Rabs (rx - k_lp (ck_tree y)) <= INR n * u * ((INR D + 2) * K).
  Proof.
    intros (_ & _ & H) Hn Hr. apply near_lp in H as [H _]. apply abs_le in H, Hr.
    assert (INR n * u * (2 * B + 5) <= INR n * u * K).
    { apply Rmult_le_compat_l; [apply Rmult_le_pos; [apply pos_INR|lra]|]. pose proof L0. unfold K. lra. }
    unfold Kd in H. apply Rabs_le. lra.
  Qed.

  Lemma predict_err n x y a h : near_m n x y -> (S n <= N)%nat -> bit a -> incl h [0; 1]%Z ->
    exists p q, m_logp (FCTWKT_model F) x a h = Ok p /\ m_logp CTWKT_model y a h = Ok q /\
      Rabs (p - q) <= INR (S n) * u * ((2 * INR D + 3) * K).
  Proof.
    intros H Hn Ha Hh. destruct (model_step n x y a h H Hn Ha Hh) as (x' & y' & Ux & Uy & H').
    exists (f_sub F (k_lp (ck_tree x')) (k_lp (ck_tree x))), (k_lp (ck_tree y') - k_lp (ck_tree y)).
    split; [rewrite (model_predict_is_update F x a h 1), Ux; reflexivity|].
    split; [rewrite <- exact_model in Uy |- *; rewrite (model_predict_is_update exact y a h 1), Uy; reflexivity|].
    destruct H as (_ & _ & H), H' as (_ & _ & H').
    pose proof (diff_err D n _ _ _ _ H H' Hn ltac:(lia)) as Hd. apply near_lp in H as [H _], H' as [H' _].
    apply abs_le in H, H', Hd. pose proof L0. pose proof K0. rewrite S_INR in *. pose proof (pos_INR n). pose proof (Kd_K D).
    assert (INR n * u * Kd D <= (INR n + 1) * u * Kd D) by (apply Rmult_le_compat_r; [lra|]; apply Rmult_le_compat_r; lra).
    assert (u * (B + 2) <= (INR n + 1) * u * K).
    { rewrite Rmult_assoc. assert (0 <= u * K) by (apply Rmult_le_pos; lra).
      assert (u * (B + 2) <= u * K) by (apply Rmult_le_compat_l; unfold K; lra). nra. }
    unfold Kd in *. apply Rabs_le. lra.
  Qed.
End rounding.

Lemma ctwkt_lawful D : (0 < D)%nat -> lawful CTWKT_model [0; 1]%Z bit_hist nonneg (kctw_inv D).
Proof.
  intros HD. split; [exact (ctwkt_steps D HD)|]. intros k h (s & Hk & HI) Hh.
  pose proof (law_norm _ _ _ _ _ (ctw_lawful KTB_model ktb_init true [0; 1]%Z any_hist nonneg ktb_inv [0; 1]%Z D
    (law_step _ _ _ _ _ ktb_lawful) ktb_inv_init bits_nodup ltac:(cbn; auto) (fun _ => incl_refl _) HD ktb_lawful
    ltac:(unfold nonneg; lra)) s h HI Hh) as HNorm.
  rewrite <- HNorm. apply Rsum_map_ext. intros a _. unfold pred_prob.
  pose proof (ctwkt_op_sim (OpPredict a h) k s Hk) as H2. cbn [do_op] in H2. cbn [CTW_model CTWKT_model m_logp] in *.
  destruct (ctw_log_predict KTB_model ktb_init true s a h) as [[s2 r2]|];
    destruct (ctwkt_log_predict k a h) as [[k2 r]|]; cbn [bind] in *; try contradiction; [|reflexivity].
  destruct H2 as (-> & _). reflexivity.
Qed.

Section top.
  Context (F : floats) (u big : R) (max D : nat) (seq h : list Z).
  Hypothesis HF : accurate F u big max.
  Hypothesis Hu : 0 <= u <= / 64.
  Hypothesis HD : (0 < D)%nat.
  Hypothesis Hs : incl seq [0; 1]%Z.
  Hypothesis Hh : incl h [0; 1]%Z.

  Theorem whole_error : seq <> [] -> let n := length seq in
    (2 * n + 2 <= max)%nat -> allowance n <= big -> INR n * u * ((INR D + 1) * allowance n) <= 1 ->
    exists x y r r', fp_update_seq F (FCTWKT_model F) (ctwkt_init (Z.of_nat D)) seq h 1 = Ok (x, h, r') /\
      update_seq CTWKT_model (ctwkt_init (Z.of_nat D)) seq h 1 = Ok (y, h, r) /\
      Rabs (r' - r) <= INR n * u * ((INR D + 2) * allowance n).
  Proof.
    intros Hne n Hmax Hbig Hsmall. assert (Hn : (0 < n)%nat) by (unfold n; destruct seq; [congruence|cbn; lia]).
    set (B := INR n * ln (2 * INR n + 2) + 2). assert (HA : allowance n = K B) by reflexivity. rewrite HA in *.
    assert (HB : 0 <= B).
    { pose proof (pos_INR n). assert (0 <= ln (2 * INR n + 2)) by (rewrite <- ln_1; apply ln_le; lra). unfold B. nra. }
    destruct (reached F u big max HF Hu n D _ B Hn eq_refl ltac:(unfold B; lra) Hmax ltac:(unfold K in Hbig; lra) Hsmall HD seq h (le_n _) Hs Hh)
      as (x & y & r' & E1 & E2 & H1 & H2).
    exists x, y, (k_lp (ck_tree y)), r'. unfold fp_update_seq, update_seq. rewrite E1, E2. cbn [bind].
    rewrite !clear_suffix by exact Hne. split; [reflexivity|]. split; [reflexivity|].
    eapply total_err; [exact Hu|exact Hn|reflexivity|unfold B; lra|exact Hmax|exact H1|apply le_n|exact H2].
  Qed.

  Theorem predict_error : seq <> [] -> let n := S (length seq) in
    (2 * n + 2 <= max)%nat -> allowance n <= big -> INR n * u * ((INR D + 1) * allowance n) <= 1 ->
    exists x y r r', fp_update_seq F (FCTWKT_model F) (ctwkt_init (Z.of_nat D)) seq h 1 = Ok (x, h, r') /\
      update_seq CTWKT_model (ctwkt_init (Z.of_nat D)) seq h 1 = Ok (y, h, r) /\
      forall h', incl h' [0; 1]%Z ->
        (forall a, In a [0; 1]%Z -> exists p q, m_logp (FCTWKT_model F) x a h' = Ok p /\ m_logp CTWKT_model y a h' = Ok q /\
          Rabs (p - q) <= INR n * u * ((2 * INR D + 3) * allowance n)) /\
        exp (- (INR n * u * ((2 * INR D + 3) * allowance n)))
          <= pred_prob (FCTWKT_model F) x 0 h' + pred_prob (FCTWKT_model F) x 1 h'
          <= exp (INR n * u * ((2 * INR D + 3) * allowance n)).
  Proof.
    intros Hne n Hmax Hbig Hsmall. assert (Hn : (0 < n)%nat) by (unfold n; lia).
    set (B := INR n * ln (2 * INR n + 2) + 2). assert (HA : allowance n = K B) by reflexivity. rewrite HA in *.
    assert (HB : 0 <= B).
    { pose proof (pos_INR n). assert (0 <= ln (2 * INR n + 2)) by (rewrite <- ln_1; apply ln_le; lra). unfold B. nra. }
    destruct (reached F u big max HF Hu n D _ B Hn eq_refl ltac:(unfold B; lra) Hmax ltac:(unfold K in Hbig; lra) Hsmall HD seq h ltac:(lia) Hs Hh)
      as (x & y & r' & E1 & E2 & H1 & H2).
    exists x, y, (k_lp (ck_tree y)), r'. unfold fp_update_seq, update_seq. rewrite E1, E2. cbn [bind].
    rewrite !clear_suffix by exact Hne. split; [reflexivity|]. split; [reflexivity|]. intros h' Hh'.
    assert (HP : forall a, bit a -> exists p q, m_logp (FCTWKT_model F) x a h' = Ok p /\ m_logp CTWKT_model y a h' = Ok q /\
          Rabs (p - q) <= INR n * u * ((2 * INR D + 3) * K B)).
    { intros a Ha. apply (predict_err F u big max HF Hu n D _ B Hn eq_refl ltac:(unfold B; lra) Hmax ltac:(unfold K in Hbig; lra) Hsmall HD (length seq) x y a h' H1 (le_n _) Ha Hh'). }
    set (eps := INR n * u * ((2 * INR D + 3) * K B)) in *.
    split; [intros a [<- | [<- | []]]; apply HP; unfold bit; auto|].
    (* the exact predictions sum to one *)
    assert (HI : kctw_inv D y).
    { assert (Hev : Forall (ok_event [0; 1]%Z bit_hist nonneg) (events_from h seq 1)).
      { clear - Hs Hh. revert h Hh Hs. induction seq as [|a s IH]; intros h Hh Hs; cbn [events_from]; [constructor|].
        constructor.
        - split; [apply Hs; left; reflexivity|]. split; [split; [exact I|exact Hh]|]. unfold nonneg; cbn; lra.
        - apply IH; [|intros z Hz; apply Hs; right; exact Hz].
          intros z Hz; apply in_app_or in Hz as [Hz|[<- | []]]; [exact (Hh z Hz)|apply Hs; left; reflexivity]. }
      rewrite update_seq_loop_run in E2. destruct (steps_run _ _ _ _ _ (ctwkt_steps D HD) _ _ (kctw_inv_init D) Hev) as (s' & l & Hr & HI).
      rewrite Hr in E2. cbn [bind] in E2. injection E2 as <- _. exact HI. }
    pose proof (law_norm _ _ _ _ _ (ctwkt_lawful D HD) y h' HI (conj I Hh')) as HNorm.
    cbn [map] in HNorm. rewrite Rsum_cons, Rsum_single in HNorm.
    destruct (HP 0%Z (or_introl eq_refl)) as (p0 & q0 & P0 & Q0 & Z0). destruct (HP 1%Z (or_intror eq_refl)) as (p1 & q1 & P1 & Q1 & Z1).
    unfold pred_prob in *. rewrite P0, P1. rewrite Q0, Q1 in HNorm. apply abs_le in Z0, Z1.
    pose proof (exp_pos q0). pose proof (exp_pos q1). pose proof (exp_pos eps). pose proof (exp_pos (- eps)).
    pose proof (exp_le_mono (q0 + - eps) p0 ltac:(lra)) as A1. pose proof (exp_le_mono (q1 + - eps) p1 ltac:(lra)) as A2.
    pose proof (exp_le_mono p0 (q0 + eps) ltac:(lra)) as A3. pose proof (exp_le_mono p1 (q1 + eps) ltac:(lra)) as A4.
    rewrite exp_plus in A1, A2, A3, A4. split; nra.
  Qed.
End top.
