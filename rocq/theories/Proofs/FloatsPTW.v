(** How far rounding errors take PTW from exact partition tree weighting. *)
From Coq Require Import Lra Lia.
From Verif Require Import Spec.FloatsSpec Model.PTW.
From Verif Require Import Proofs.RealFacts Proofs.KTRedundancy Proofs.PTWFacts Proofs.SeqFacts Proofs.FloatsFacts Proofs.FloatsCTW.
Open Scope R_scope.

Lemma exact_ptw {S} (M : model S) m fresh : FPTW_model exact M m fresh = PTW_model M m fresh.
Proof. reflexivity. Qed.
Lemma exact_ktb : FKTB_model exact = KTB_model.
Proof. reflexivity. Qed.

Lemma INR_pow_S k : INR (2 ^ S k) = 2 * INR (2 ^ k).
Proof. replace (2 ^ S k)%nat with (2 ^ k + 2 ^ k)%nat by (cbn [Nat.pow]; lia). rewrite plus_INR. lra. Qed.
Lemma INR_pow_1 k : 1 <= INR (2 ^ k).
Proof. apply (le_INR 1). pose proof (pow_pos k). lia. Qed.
Lemma INR_pow_add a b : INR (2 ^ b) <= INR (2 ^ (a + b)).
Proof. apply le_INR. apply Nat.pow_le_mono_r; lia. Qed.
Lemma pow_gap a k : INR (2 ^ S a) + INR k <= INR (2 ^ S (a + k)).
Proof.
  induction k as [|k IH]; [rewrite Nat.add_0_r; cbn [INR]; lra|].
  rewrite <- plus_n_Sm, (INR_pow_S (S (a + k))), S_INR. pose proof (INR_pow_1 (S (a + k))). lra.
Qed.

Lemma pnode_nest {S} (P : pnode S -> Prop) :
  (forall b h c bl ll l r, match r with Some r => P r | None => True end -> P (PNode b h c bl ll l r)) -> forall n, P n.
Proof.
  intros H. fix IH 1. intros [b h c bl ll l [r|]]; apply H; [apply IH|exact I].
Qed.

Section rounding.
  Variables (F : floats) (u big : R) (max : nat).
  Hypothesis HF : accurate F u big max.
  Hypothesis Hu : 0 <= u <= / 64.
  Context {S1 S2 : Type} (M1 : model S1) (M2 : model S2) (f1 : S1) (f2 : S2) (ok : Z -> list Z -> Prop)
    (N : nat) (eps L c : R) (close : nat -> S1 -> S2 -> R -> Prop).
  Hypothesis HT : tracks M1 M2 f1 f2 ok N eps L c close.
  Variable m : nat.
  Variable B : R.
  Hypothesis HN : (0 < N)%nat.
  Hypothesis HL : 0 <= L.
  Hypothesis Hc : 0 <= c.
  Hypothesis Heps : 0 <= eps.
  Hypothesis HB : 4 * INR N * (L + c + 2) + 8 <= B.
  Hypothesis Hbig : 2 * B + 6 <= big.
  Definition nu := u * (3 * B + 20) + eps.
  Hypothesis Hsmall : 25 * (INR N * nu) <= 1.

  Lemma IN1 : 1 <= INR N.
  Proof. apply (le_INR 1). lia. Qed.
  Lemma B0 : 16 <= B.
  Proof. pose proof IN1. nra. Qed.
  Lemma nu0 : 0 <= nu.
  Proof. pose proof B0. unfold nu. assert (0 <= u * (3 * B + 20)) by (apply Rmult_le_pos; lra). lra. Qed.
  Lemma nsmall n : (n <= N)%nat -> 25 * (INR n * nu) <= 1.
  Proof. intros H. apply le_INR in H. pose proof nu0. nra. Qed.
  Lemma nu1 : 25 * nu <= 1.
  Proof. pose proof (nsmall 1 HN). cbn [INR] in H. lra. Qed.
  Lemma nB n : (n <= N)%nat -> 0 <= INR n * L <= INR N * L /\ 4 * (INR N * L + c + 2) + 8 <= B.
  Proof. intros H. apply le_INR in H. pose proof (pos_INR n). pose proof IN1. split; [split; [apply Rmult_le_pos; lra|apply Rmult_le_compat_r; lra]|]. nra. Qed.

  Definition mu := u * (2 * B + 17).
  Lemma mu_nu : 0 <= mu /\ mu + u * (B + 3) <= nu.
  Proof.
    pose proof B0. unfold mu, nu. split; [apply Rmult_le_pos; lra|].
    replace (u * (3 * B + 20)) with (u * (2 * B + 17) + u * (B + 3)) by ring. lra.
  Qed.

  (** mixing two sides *)
  Lemma mix_gen b b' cc cc' e : - B <= b' <= 0 -> - B <= cc' <= 0 -> Rabs (b - b') <= e -> Rabs (cc - cc') <= e -> e <= 1 ->
    Rabs (f_add F (fp_log_0_5 F) (fp_logsumexp2 F b cc) - (log_0_5 + logsumexp2 b' cc')) <= e + mu.
  Proof.
    intros Hb Hcc Eb Ec He. pose proof (lse2_lip _ _ _ _ _ Eb Ec) as Hlip.
    apply abs_le in Eb, Ec, Hlip. pose proof B0 as HB0. pose proof nu1 as HK. unfold nu in HK.
    assert (Hlse : Rabs (fp_logsumexp2 F b cc - logsumexp2 b cc) <= u * (B + 1 + 11)).
    { apply (lse2_err F u big max HF Hu); [apply Rabs_le; lra|apply Rabs_le; lra|lra]. }
    assert (Hh : Rabs (fp_log_0_5 F - log_0_5) <= u * 2).
    { unfold fp_log_0_5, log_0_5. eapply Rle_trans; [apply (acc_log _ _ _ _ HF); lra|]. apply Rmult_le_compat_l; [lra|].
      destruct ln2_le as [H2 H3]. fold log_0_5. rewrite H3, Rabs_Ropp, Rabs_right; [lra|]. pose proof ln2_bounds. lra. }
    apply abs_le in Hlse, Hh.
    pose proof (mix_bounds b' cc' B ltac:(lra) ltac:(lra)) as Hmix.
    assert (Hu1 : u * (B + 14) <= 1).
    { assert (0 <= u * (2 * B + 6)) by (apply Rmult_le_pos; lra). lra. }
    assert (Ha : Rabs (f_add F (fp_log_0_5 F) (fp_logsumexp2 F b cc) - (fp_log_0_5 F + fp_logsumexp2 F b cc)) <= u * (B + 3)).
    { apply (add_err F u big max HF Hu); [apply Rabs_le; lra|lra]. }
    apply abs_le in Ha. apply Rabs_le. unfold mu. lra.
  Qed.

  Lemma lift_range k : forall b x q, q <= B - 1 -> - q <= b <= 0 -> - q - 1 <= x <= 0 -> - q - 1 <= lift k b x <= 0.
  Proof.
    induction k as [|k IH]; intros b x q Hq Hb Hx; cbn [lift]; [exact Hx|].
    apply IH; [exact Hq|exact Hb|]. apply mix_bounds; lra.
  Qed.

  Lemma lift_err k : forall b b' x x' q e, q <= B - 1 -> - q <= b' <= 0 -> - q - 1 <= x' <= 0 ->
    Rabs (b - b') <= e -> Rabs (x - x') <= e -> e + INR k * mu <= 1 ->
    Rabs (flift F k b x - lift k b' x') <= e + INR k * mu.
  Proof.
    destruct mu_nu as [Hmu _].
    induction k as [|k IH]; intros b b' x x' q e Hq Hb Hx Eb Ex He; cbn [lift flift]; [cbn [INR]; lra|].
    rewrite S_INR in *. pose proof (pos_INR k). assert (0 <= INR k * mu) by (apply Rmult_le_pos; lra).
    replace (e + (INR k + 1) * mu) with ((e + mu) + INR k * mu) by ring.
    apply (IH _ _ _ _ q); [exact Hq|exact Hb|apply mix_bounds; lra|lra| |lra].
    apply mix_gen; lra.
  Qed.

  (** The computed node [x] and the exact one [y], of height [m + d], after [n] updates. *)
  Definition node_err (d n : nat) : R := INR n * nu + (INR (2 ^ S d) - 1) * nu.
  Fixpoint pnear (d n : nat) (x : pnode S1) (y : pnode S2) {struct x} : Prop :=
    let '(PNode bx hx cx blx llx lx rx) := x in
    let '(PNode by' hy cy bly lly ly ry) := y in
    close n bx by' bly /\ hx = (m + d)%nat /\ hy = (m + d)%nat /\ cx = n /\ cy = n /\ (n <= 2 ^ (m + d))%nat /\
    Rabs (blx - bly) <= INR n * nu /\ Rabs (lx - ly) <= node_err d n /\ - (INR n * L + c) - 1 <= ly <= 0 /\
    match rx, ry with
    | None, None => d = O /\ lx = blx /\ ly = bly
    | Some rx, Some ry => exists d' dr nr, d = S d' /\ (dr <= d')%nat /\ n = (2 ^ (m + d') + nr)%nat /\ (0 < nr)%nat /\
        Rabs (llx - lly) <= node_err d' (2 ^ (m + d')) /\
        - (INR (2 ^ (m + d')) * L + c) - 1 <= lly <= 0 /\ pnear dr nr rx ry
    | _, _ => False
    end.

  Lemma pnear_fields d n x y : pnear d n x y ->
    p_height x = (m + d)%nat /\ p_height y = (m + d)%nat /\ p_count x = n /\ p_count y = n /\ (n <= 2 ^ (m + d))%nat /\
    Rabs (p_blp x - p_blp y) <= INR n * nu /\ Rabs (p_lp x - p_lp y) <= node_err d n /\
    (- (INR n * L + c) - 1 <= p_lp y <= 0) /\ ((n <= N)%nat -> - (INR n * L + c) <= p_blp y <= 0) /\
    (d = O \/ exists d', d = S d' /\ (2 ^ (m + d') < n)%nat).
  Proof.
    destruct x as [bx hx cx blx llx lx rx], y as [by' hy cy bly lly ly ry]; cbn [pnear p_height p_count p_blp p_lp].
    intros (H1 & -> & -> & -> & -> & H2 & H3 & H4 & H5 & H6). repeat (split; [assumption || reflexivity|]).
    split; [intros Hn; apply (tr_size _ _ _ _ _ _ _ _ _ _ HT _ _ _ _ H1 Hn)|].
    destruct rx, ry; try contradiction; [|left; tauto].
    destruct H6 as (d' & dr & nr & -> & _ & -> & Hnr & _). right. exists d'. split; [reflexivity|lia].
  Qed.

  Lemma node_err_5 d n x y : pnear d n x y -> (0 < n)%nat -> node_err d n <= 5 * (INR n * nu).
  Proof.
    intros H Hn. apply pnear_fields in H as (_ & _ & _ & _ & _ & _ & _ & _ & _ & H). unfold node_err. pose proof nu0 as Hnu.
    assert (Hn1 : 1 <= INR n) by (apply (le_INR 1); lia).
    assert (INR (2 ^ S d) - 1 <= 4 * INR n).
    { destruct H as [-> | (d' & -> & H)]; [cbn; lra|]. rewrite !INR_pow_S. apply lt_INR in H. pose proof (INR_pow_add m d'). lra. }
    nra.
  Qed.

  Lemma pnear_new : pnear 0 0 (new_pnode m f1) (new_pnode m f2).
  Proof.
    cbn [pnear new_pnode]. split; [apply HT|]. pose proof nu0. repeat (split; [lia|]). unfold node_err. cbn [INR Nat.pow Nat.add].
    rewrite Rminus_0_r, Rabs_R0. split; [lra|]. split; [change (INR (2 * 1)) with 2; lra|]. split; [lra|]. auto.
  Qed.

  (** the base model of a node *)
  Lemma base_step n bx by' b blx a h : close n bx by' b -> (S n <= N)%nat -> ok a h -> Rabs (blx - b) <= INR n * nu ->
    exists bx' by'' lx ly, m_update M1 bx a h 1 = Ok (bx', lx) /\ m_update M2 by' a h 1 = Ok (by'', ly) /\
      close (S n) bx' by'' (b + ly) /\ Rabs (f_add F blx lx - (b + ly)) <= INR (S n) * nu /\
      - (INR (S n) * L + c) <= b + ly <= 0.
  Proof.
    intros Hcl Hn Ha Hb. destruct (tr_step _ _ _ _ _ _ _ _ _ _ HT n bx by' b a h Hcl Hn Ha) as (bx' & by'' & lx & ly & E1 & E2 & E3 & E4).
    exists bx', by'', lx, ly. split; [exact E1|]. split; [exact E2|]. split; [exact E4|].
    pose proof (tr_size _ _ _ _ _ _ _ _ _ _ HT _ _ _ _ E4 Hn) as Hz. split; [|exact Hz].
    destruct (nB (S n) Hn) as [HnL HB2]. pose proof (nsmall n ltac:(lia)) as Sn. pose proof nu1 as Hnu1. pose proof nu0 as Hnu0.
    apply abs_le in Hb, E3. assert (He1 : eps <= nu) by (unfold nu; assert (0 <= u * (3 * B + 20)) by (apply Rmult_le_pos; pose proof B0; lra); lra).
    pose proof IN1. assert (0 <= INR n * nu) by (apply Rmult_le_pos; [apply pos_INR|lra]).
    assert (Ha2 : Rabs (f_add F blx lx - (blx + lx)) <= u * B) by (apply (add_err F u big max HF Hu); [apply Rabs_le; lra|lra]).
    apply abs_le in Ha2. rewrite S_INR. apply Rabs_le. pose proof B0.
    assert (u * B + eps <= nu) by (unfold nu; assert (0 <= u * (2 * B + 20)) by (apply Rmult_le_pos; lra); lra). lra.
  Qed.

  (** joining the left and the right part *)
  Lemma join d' n nl nr bl bl' l l' r r' : (nl + nr = n)%nat -> (n <= N)%nat -> (nl = 2 ^ (m + d'))%nat -> (0 < nr)%nat ->
    Rabs (bl - bl') <= INR n * nu -> - (INR n * L + c) <= bl' <= 0 ->
    Rabs (l - l') <= node_err d' nl -> - (INR nl * L + c) - 1 <= l' <= 0 ->
    Rabs (r - r') <= node_err d' nr -> - (INR nr * L + c) - 1 <= r' <= 0 ->
    Rabs (f_add F (fp_log_0_5 F) (fp_logsumexp2 F bl (f_add F l r)) - (log_0_5 + logsumexp2 bl' (l' + r'))) <= node_err (S d') n /\
    - (INR n * L + c) - 1 <= log_0_5 + logsumexp2 bl' (l' + r') <= 0.
  Proof.
    intros Hn HnN Hnl Hnr Eb Rb El Rl Er Rr. split; [|apply mix_bounds; lra].
    destruct (nB n HnN) as [HnL HB2]. pose proof (nsmall n HnN) as Sn. pose proof nu0 as Hnu0. pose proof nu1 as Hnu1. pose proof IN1.
    assert (En : INR nl + INR nr = INR n) by (rewrite <- plus_INR; f_equal; exact Hn).
    assert (Pd : INR (2 ^ S d') <= 2 * INR nl) by (rewrite INR_pow_S, Hnl; pose proof (INR_pow_add m d'); lra).
    pose proof (pos_INR nl) as Pl. assert (Pr : 1 <= INR nr) by (apply (le_INR 1); lia).
    pose proof (INR_pow_1 (S d')) as P1.
    assert (HL2 : INR nl * L + INR nr * L = INR n * L) by (rewrite <- En; ring).
    unfold node_err in *. rewrite (INR_pow_S (S d')).
    set (w := INR (2 ^ S d')) in *.
    assert (T1 : w * nu <= 2 * (INR nl * nu)) by nra.
    assert (T2 : INR nl * nu + INR nr * nu = INR n * nu) by (rewrite <- En; ring).
    assert (T3 : 0 <= INR nr * nu) by (apply Rmult_le_pos; lra).
    assert (T4 : 1 * nu <= w * nu) by (apply Rmult_le_compat_r; lra).
    destruct mu_nu as [Hmu Hmu2]. apply abs_le in El, Er.
    assert (Ha : Rabs (f_add F l r - (l + r)) <= u * (B + 3)).
    { apply (add_err F u big max HF Hu); [apply Rabs_le; lra|pose proof B0; lra]. }
    apply abs_le in Ha.
    assert (Hub : 0 <= u * (B + 3)) by (apply Rmult_le_pos; pose proof B0; lra).
    set (e := INR n * nu + (2 * w - 2) * nu + u * (B + 3)).
    assert (Ee : e <= 1) by (unfold e; lra).
    eapply Rle_trans; [apply (mix_gen _ bl' _ (l' + r') e)|].
    - lra.
    - lra.
    - eapply Rle_trans; [exact Eb|]. unfold e. lra.
    - apply Rabs_le. unfold e. lra.
    - exact Ee.
    - unfold e. lra.
  Qed.

  Lemma complete_near {S} (n : pnode S) d k : p_height n = (m + d)%nat -> p_count n = k -> (k <= 2 ^ (m + d))%nat ->
    partition_is_complete n = Nat.eqb k (2 ^ (m + d)).
  Proof.
    intros Hh Hk Hle. rewrite complete_spec, Hh, Hk. destruct (Nat.eqb_spec k (2 ^ (m + d))); [apply Nat.leb_le|apply Nat.leb_gt]; lia.
  Qed.

  (** one update of a node *)
  Lemma pnear_step : forall x y d n a h, pnear d n x y -> (S n <= N)%nat -> ok a h ->
    exists x' y', fpnode_update F M1 m f1 x a h 1 = Ok x' /\ pnode_update M2 m f2 y a h 1 = Ok y' /\
      pnear (if Nat.eqb n (2 ^ (m + d)) then S d else d) (S n) x' y'.
  Proof.
    intros x. induction x as [bx hx cx blx llx lx rx IH] using pnode_nest. intros [by' hy cy bly lly ly ry] d n a h Hnear Hn Ha.
    pose proof (pnear_fields _ _ _ _ Hnear) as (F1 & F2 & F3 & F4 & F5 & F6 & F7 & F8 & F9 & _).
    pose proof (complete_near _ _ _ F1 F3 F5) as C1. pose proof (complete_near _ _ _ F2 F4 F5) as C2.
    cbn [pnear p_height p_count p_blp p_lp] in *. destruct Hnear as (Hcl & -> & -> & -> & -> & _ & _ & _ & _ & Hr).
    destruct (base_step n bx by' bly blx a h Hcl Hn Ha F6) as (bx' & by'' & l1 & l2 & E1 & E2 & Hcl' & Hbl & Rbl).
    cbn [fpnode_update pnode_update]. rewrite C1, C2. destruct (Nat.eqb_spec n (2 ^ (m + d))) as [En|En].
    - (* promoted *)
      rewrite E1, E2. cbn [bind].
      assert (H0 : Rabs (0 - 0) <= INR 0 * nu) by (rewrite Rminus_0_r, Rabs_R0; cbn; lra).
      destruct (base_step 0 f1 f2 0 0 a h ltac:(apply HT) ltac:(lia) Ha H0) as (rx' & ry' & r1 & r2 & D1 & D2 & Rcl & Rb & Rr).
      rewrite D1, D2. cbn [bind]. eexists _, _. split; [reflexivity|]. split; [reflexivity|].
      replace (S (m + d) - m - 1)%nat with d by lia.
      destruct (nB 1 HN) as [HnL HB2]. pose proof IN1 as HIN. pose proof nu0 as Hnu0. pose proof nu1 as Hnu1. destruct mu_nu as [Hmu Hmu2].
      assert (Hub : 0 <= u * (B + 3)) by (apply Rmult_le_pos; pose proof B0; lra).
      cbn [INR] in Rb, Rr, HnL. rewrite Rmult_1_l in Rb, Rr, HnL.
      assert (Hd : INR d <= INR (2 ^ S d) - 1).
      { pose proof (pow_gap 0 d) as H. cbn [Nat.add] in H. change (INR (2 ^ 1)) with 2 in H. lra. }
      assert (Hpn : INR (2 ^ S d) <= 2 * INR n) by (rewrite INR_pow_S, En; pose proof (INR_pow_add m d); lra).
      pose proof (nsmall n ltac:(lia)) as Sn. pose proof (pos_INR d) as Pd.
      assert (Hdm : INR d * mu <= (INR (2 ^ S d) - 1) * nu) by (apply Rmult_le_compat; lra).
      assert (Hsm : nu + INR d * mu <= 1) by nra.
      assert (Hlift : Rabs (flift F d (f_add F 0 r1) (f_add F 0 r1) - lift d (0 + r2) (0 + r2)) <= node_err d 1).
      { eapply Rle_trans; [apply (lift_err d _ _ _ _ (L + c) nu); try lra|].
        unfold node_err. cbn [INR]. lra. }
      pose proof (lift_range d (0 + r2) (0 + r2) (L + c) ltac:(lra) ltac:(lra) ltac:(lra)) as Rlift.
      assert (HJ := join d (S n) n 1 (f_add F blx l1) (bly + l2) lx ly _ _ ltac:(lia) Hn En ltac:(lia) Hbl Rbl F7 F8 Hlift).
      cbn [INR] in HJ. rewrite Rmult_1_l in HJ. specialize (HJ Rlift). destruct HJ as [J1 J2].
      cbn [pnear]. replace (n + 1)%nat with (S n) by lia. split; [exact Hcl'|]. split; [lia|]. split; [lia|]. split; [reflexivity|].
      split; [reflexivity|]. split; [rewrite <- plus_n_Sm; cbn [Nat.pow]; pose proof (pow_pos (m + d)); lia|].
      split; [exact Hbl|]. split; [exact J1|]. split; [exact J2|].
      exists d, O, 1%nat. split; [reflexivity|]. split; [lia|]. split; [lia|]. split; [lia|].
      rewrite En in F7, F8. split; [exact F7|]. split; [exact F8|].
      cbn [pnear]. split; [exact Rcl|]. do 4 (split; [lia|]). split; [pose proof (pow_pos (m + 0)); lia|].
      cbn [INR]. rewrite Rmult_1_l. split; [exact Rb|]. split; [eapply Rle_trans; [exact Rb|]; unfold node_err; change (INR (2 ^ 1)) with 2; cbn [INR]; lra|].
      split; [rewrite Rmult_1_l; lra|]. auto.
    - rewrite E1, E2. cbn [bind]. destruct rx as [rx|], ry as [ry|]; try contradiction.
      + destruct Hr as (d' & dr & nr & -> & Hdr & Hnr & Hnr0 & El & Rl & Hrn).
        destruct (IH ry dr nr a h Hrn ltac:(lia) Ha) as (rx' & ry' & D1 & D2 & Hrn').
        rewrite D1, D2. cbn [bind]. eexists _, _. split; [reflexivity|]. split; [reflexivity|].
        set (dr' := if Nat.eqb nr (2 ^ (m + dr)) then S dr else dr) in *.
        pose proof (pnear_fields _ _ _ _ Hrn') as (G1 & G2 & G3 & G4 & G5 & G6 & G7 & G8 & G9 & _).
        specialize (G9 ltac:(lia)).
        assert (Hdr' : (dr' <= d')%nat).
        { unfold dr'. destruct (Nat.eqb_spec nr (2 ^ (m + dr))) as [En'|]; [|exact Hdr].
          assert (dr <> d'); [|lia]. intros ->. apply En. rewrite <- plus_n_Sm. cbn [Nat.pow]. lia. }
        rewrite G1, G2. replace (m + S d' - (m + dr') - 1)%nat with (d' - dr')%nat by lia.
        set (k := (d' - dr')%nat). replace d' with (dr' + k)%nat in * by lia.
        destruct (nB (S nr) ltac:(lia)) as [HnL HB2]. pose proof IN1 as HIN. pose proof nu0 as Hnu0. pose proof nu1 as Hnu1. destruct mu_nu as [Hmu Hmu2].
        assert (Hub : 0 <= u * (B + 3)) by (apply Rmult_le_pos; pose proof B0; lra).
        pose proof (pow_gap dr' k) as Hgap. pose proof (pos_INR k) as Pk. pose proof (INR_pow_1 (S dr')) as P1.
        assert (Hkm : INR k * mu <= INR k * nu) by (apply Rmult_le_compat_l; lra).
        assert (Hsum : node_err dr' (S nr) + INR k * mu <= node_err (dr' + k) (S nr)).
        { unfold node_err. assert ((INR (2 ^ S dr') + INR k) * nu <= INR (2 ^ S (dr' + k)) * nu) by (apply Rmult_le_compat_r; lra). lra. }
        assert (Hsm : node_err (dr' + k) (S nr) <= 1).
        { unfold node_err. rewrite INR_pow_S. pose proof (INR_pow_add m (dr' + k)) as Hp.
          pose proof (nsmall n ltac:(lia)) as Sn. assert (En2 : INR n = INR (2 ^ (m + (dr' + k))) + INR nr) by (rewrite Hnr; apply plus_INR).
          rewrite S_INR. assert (0 <= INR nr * nu) by (apply Rmult_le_pos; [apply pos_INR|lra]).
          assert (INR (2 ^ (dr' + k)) * nu <= INR (2 ^ (m + (dr' + k))) * nu) by (apply Rmult_le_compat_r; lra).
          assert (INR n * nu = INR (2 ^ (m + (dr' + k))) * nu + INR nr * nu) by (rewrite En2; ring). lra. }
        assert (Hlift : Rabs (flift F k (p_blp rx') (p_lp rx') - lift k (p_blp ry') (p_lp ry')) <= node_err (dr' + k) (S nr)).
        { eapply Rle_trans; [apply (lift_err k _ _ _ _ (INR (S nr) * L + c) (node_err dr' (S nr))); try assumption; try lra|lra].
          eapply Rle_trans; [exact G6|]. unfold node_err. assert (1 * nu <= INR (2 ^ S dr') * nu) by (apply Rmult_le_compat_r; lra). lra. }
        assert (Rlift : - (INR (S nr) * L + c) - 1 <= lift k (p_blp ry') (p_lp ry') <= 0) by (apply lift_range; lra).
        destruct (join (dr' + k) (S n) (2 ^ (m + (dr' + k))) (S nr) (f_add F blx l1) (bly + l2) llx lly _ _ ltac:(lia) Hn eq_refl ltac:(lia)
          Hbl Rbl El Rl Hlift Rlift) as [J1 J2].
        cbn [pnear]. replace (n + 1)%nat with (S n) by lia. split; [exact Hcl'|]. split; [reflexivity|]. split; [reflexivity|]. split; [reflexivity|].
        split; [reflexivity|]. split; [lia|].
        split; [exact Hbl|]. split; [exact J1|]. split; [exact J2|].
        exists (dr' + k)%nat, dr', (S nr). split; [reflexivity|]. split; [lia|]. split; [lia|]. split; [lia|]. auto.
      + destruct Hr as (-> & -> & ->). eexists _, _. split; [reflexivity|]. split; [reflexivity|].
        cbn [pnear]. replace (n + 1)%nat with (S n) by lia. split; [exact Hcl'|]. split; [reflexivity|]. split; [reflexivity|]. split; [reflexivity|].
        split; [reflexivity|]. split; [lia|]. split; [exact Hbl|]. pose proof nu0 as Hnu0.
        split; [eapply Rle_trans; [exact Hbl|]; unfold node_err; change (INR (2 ^ 1)) with 2; lra|]. split; [lra|]. auto.
  Qed.

  (** The whole model after [n] updates. *)
  Definition Lam := L + c + 2.
  Definition ptnear (n : nat) (x : ptw (S := S1)) (y : ptw (S := S2)) : Prop :=
    exists d, pnear d n (pt_tree x) (pt_tree y) /\
      Rabs (pt_adj x - pt_adj y) <= 8 * (INR (2 ^ (m + d)) * nu) /\ Rabs (pt_adj y) <= INR (2 ^ (m + d)) * Lam /\
      (d = O -> pt_adj x = 0 /\ pt_adj y = 0) /\
      Rabs (pt_lp x - pt_lp y) <= 22 * (INR n * nu) /\ Rabs (pt_lp y) <= B - 8.

  Lemma ptnear_new : ptnear 0 (ptw_init m f1) (ptw_init m f2).
  Proof.
    exists O. cbn [ptw_init pt_tree pt_adj pt_lp]. split; [apply pnear_new|]. rewrite Rminus_0_r, Rabs_R0. cbn [INR].
    pose proof nu0. pose proof B0. pose proof (pos_INR (2 ^ (m + 0))). unfold Lam. repeat split; try lra; try (apply Rmult_le_pos; lra).
    apply Rmult_le_pos; [lra|]. apply Rmult_le_pos; lra.
  Qed.

  Lemma Lam0 : 0 <= Lam /\ 4 * (INR N * Lam) + 8 <= B.
  Proof. unfold Lam. split; [lra|]. lra. Qed.

  (** the correction made when the tree is full *)
  Lemma adj_err d n (x : ptw (S := S1)) (y : ptw (S := S2)) : ptnear n x y -> pnear d n (pt_tree x) (pt_tree y) -> (n <= N)%nat -> n = (2 ^ (m + d))%nat ->
    let q s := f_add F (pt_adj s) (f_sub F (p_lp (pt_tree s)) (f_add F (fp_log_0_5 F) (fp_logsumexp2 F (p_blp (pt_tree s)) (p_lp (pt_tree s))))) in
    let r s := pt_adj s + (p_lp (pt_tree s) - (log_0_5 + logsumexp2 (p_blp (pt_tree s)) (p_lp (pt_tree s)))) in
    Rabs (q x - r y) <= 8 * (INR (2 ^ (m + S d)) * nu) /\ Rabs (r y) <= INR (2 ^ (m + S d)) * Lam.
  Proof.
    intros (d2 & H1 & H2 & H3 & _) H Hn En q r. unfold q, r. clear q r.
    pose proof (pnear_fields _ _ _ _ H) as (F1 & F2 & F3 & F4 & F5 & F6 & F7 & F8 & F9 & _). specialize (F9 Hn).
    assert (d2 = d) as -> by (apply pnear_fields in H1 as (E & _); lia).
    replace (m + S d)%nat with (S (m + d)) by lia. rewrite INR_pow_S. rewrite <- En in *.
    set (a := pt_adj x) in *. set (a' := pt_adj y) in *. set (l := p_lp (pt_tree x)) in *. set (l' := p_lp (pt_tree y)) in *.
    set (b := p_blp (pt_tree x)) in *. set (b' := p_blp (pt_tree y)) in *.
    destruct (nB n Hn) as [HnL HB2]. pose proof (nsmall n Hn) as Sn. pose proof nu0 as Hnu0. pose proof nu1 as Hnu1.
    destruct mu_nu as [Hmu Hmu2]. destruct Lam0 as [HL0 HL1]. pose proof B0 as HB0.
    assert (N1 : 1 <= INR n) by (rewrite En; apply INR_pow_1).
    assert (Nn : 1 * nu <= INR n * nu) by (apply Rmult_le_compat_r; lra).
    assert (NL : INR n * Lam <= INR N * Lam) by (apply Rmult_le_compat_r; [lra|apply le_INR; exact Hn]).
    assert (NL2 : INR n * L + c + 2 <= INR n * Lam) by (unfold Lam; nra).
    assert (E3 : node_err d n <= 3 * (INR n * nu)).
    { unfold node_err. assert (INR (2 ^ S d) * nu <= 2 * INR n * nu); [|lra]. apply Rmult_le_compat_r; [lra|].
      rewrite INR_pow_S, En. pose proof (INR_pow_add m d). lra. }
    assert (Hmix : Rabs (f_add F (fp_log_0_5 F) (fp_logsumexp2 F b l) - (log_0_5 + logsumexp2 b' l')) <= 3 * (INR n * nu) + mu).
    { apply mix_gen; lra. }
    pose proof (mix_bounds b' l' (INR n * L + c) ltac:(lra) ltac:(lra)) as Rm.
    set (x1 := f_add F (fp_log_0_5 F) _) in *. set (x2 := log_0_5 + _) in *.
    apply abs_le in F7, H2, H3, Hmix.
    assert (Hub : 0 <= u * (B + 3) <= nu) by (split; [apply Rmult_le_pos; lra|lra]).
    assert (Hs : Rabs (f_sub F l x1 - (l - x1)) <= u * (B + 3)) by (apply (sub_err F u big max HF Hu); [apply Rabs_le; lra|lra]).
    apply abs_le in Hs. set (x3 := f_sub F l x1) in *.
    assert (Ha : Rabs (f_add F a x3 - (a + x3)) <= u * (B + 3)) by (apply (add_err F u big max HF Hu); [apply Rabs_le; lra|lra]).
    apply abs_le in Ha. split; apply Rabs_le; lra.
  Qed.

  Lemma ptnear_step n x y a h : ptnear n x y -> (S n <= N)%nat -> ok a h ->
    exists x' y', m_update (FPTW_model F M1 m f1) x a h 1 = Ok (x', f_sub F (pt_lp x') (pt_lp x)) /\
      m_update (PTW_model M2 m f2) y a h 1 = Ok (y', pt_lp y' - pt_lp y) /\ ptnear (S n) x' y'.
  Proof.
    intros Hpt Hn Ha. pose proof Hpt as (d & H1 & H2 & H3 & H4 & H5 & H6).
    pose proof (pnear_fields _ _ _ _ H1) as (F1 & F2 & F3 & F4 & F5 & _).
    pose proof (complete_near _ _ _ F1 F3 F5) as C1. pose proof (complete_near _ _ _ F2 F4 F5) as C2.
    destruct (pnear_step _ _ _ _ a h H1 Hn Ha) as (t & t' & E1 & E2 & Ht).
    cbn [FPTW_model PTW_model m_update]. unfold fptw_update, ptw_update. rewrite C1, C2, E1, E2. cbn [bind].
    eexists (PTW t (f_add F (p_lp t) _) _), (PTW t' (p_lp t' + _) _). split; [reflexivity|]. split; [reflexivity|].
    set (d' := if Nat.eqb n (2 ^ (m + d)) then S d else d) in *.
    match goal with |- ptnear _ (PTW _ _ ?a1) (PTW _ _ ?a2) => set (q := a1); set (r := a2) end.
    assert (HA : Rabs (q - r) <= 8 * (INR (2 ^ (m + d')) * nu) /\ Rabs r <= INR (2 ^ (m + d')) * Lam /\ (d' = O -> q = 0 /\ r = 0)).
    { unfold q, r, d'. destruct (Nat.eqb_spec n (2 ^ (m + d))) as [En|En]; [|auto].
      destruct (adj_err d n x y Hpt H1 ltac:(lia) En) as [A1 A2]. split; [exact A1|]. split; [exact A2|discriminate]. }
    clearbody q r. destruct HA as (A1 & A2 & A3).
    pose proof (pnear_fields _ _ _ _ Ht) as (_ & _ & _ & _ & _ & _ & G7 & G8 & _ & G10).
    pose proof (node_err_5 _ _ _ _ Ht ltac:(lia)) as E5.
    destruct (nB (S n) Hn) as [HnL HB2]. pose proof (nsmall (S n) Hn) as Sn. pose proof nu0 as Hnu0. pose proof nu1 as Hnu1.
    destruct mu_nu as [Hmu Hmu2]. destruct Lam0 as [HL0 HL1]. pose proof B0 as HB0.
    assert (N1 : 1 * nu <= INR (S n) * nu) by (apply Rmult_le_compat_r; [lra|apply (le_INR 1); lia]).
    assert (NL : INR (S n) * Lam <= INR N * Lam) by (apply Rmult_le_compat_r; [lra|apply le_INR; exact Hn]).
    assert (NL2 : INR N * L + c + 2 <= INR N * Lam) by (pose proof IN1; assert (1 * (c + 2) <= INR N * (c + 2)) by (apply Rmult_le_compat_r; lra); unfold Lam; lra).
    assert (A4 : Rabs (q - r) <= 16 * (INR (S n) * nu) /\ Rabs r <= 2 * (INR (S n) * Lam)).
    { destruct G10 as [E0 | (d1 & E0 & Hd1)].
      - destruct (A3 E0) as [-> ->]. rewrite Rminus_0_r, Rabs_R0. split; [lra|].
        apply Rmult_le_pos; [lra|]. apply Rmult_le_pos; [apply pos_INR|lra].
      - rewrite E0 in A1, A2. replace (m + S d1)%nat with (S (m + d1)) in A1, A2 by lia. rewrite INR_pow_S in A1, A2.
        apply lt_INR in Hd1.
        assert (INR (2 ^ (m + d1)) * nu <= INR (S n) * nu) by (apply Rmult_le_compat_r; lra).
        assert (INR (2 ^ (m + d1)) * Lam <= INR (S n) * Lam) by (apply Rmult_le_compat_r; lra). split; lra. }
    destruct A4 as [A4 A5]. apply abs_le in G7, A4, A5.
    assert (Hs : Rabs (f_add F (p_lp t) q - (p_lp t + q)) <= u * (B + 3)) by (apply (add_err F u big max HF Hu); [apply Rabs_le; lra|lra]).
    apply abs_le in Hs. exists d'. cbn [pt_tree pt_adj pt_lp]. split; [exact Ht|]. split; [exact A1|]. split; [exact A2|]. split; [exact A3|].
    split; apply Rabs_le; lra.
  Qed.

  Lemma pt_diff n x y x' y' : ptnear n x y -> ptnear (S n) x' y' -> (S n <= N)%nat ->
    Rabs (f_sub F (pt_lp x') (pt_lp x) - (pt_lp x' - pt_lp x)) <= u * (2 * B + 3).
  Proof.
    intros (d & _ & _ & _ & _ & H5 & H6) (d' & _ & _ & _ & _ & G5 & G6) Hn.
    pose proof (nsmall (S n) Hn). pose proof (nsmall n ltac:(lia)). apply abs_le in H5, H6, G5, G6. pose proof B0.
    apply (sub_err F u big max HF Hu); [apply Rabs_le; lra|lra].
  Qed.

  Lemma ptw_seq : forall seq n x y h rx, ptnear n x y -> (n + length seq <= N)%nat -> ok_run ok h seq ->
    Rabs (rx - pt_lp x) <= INR n * nu ->
    exists x' y' rx', fp_update_seq_loop F (FPTW_model F M1 m f1) x seq h 1 rx = Ok (x', h ++ seq, rx') /\
      update_seq_loop (PTW_model M2 m f2) y seq h 1 (pt_lp y) = Ok (y', h ++ seq, pt_lp y') /\
      ptnear (n + length seq) x' y' /\ Rabs (rx' - pt_lp x') <= INR (n + length seq) * nu.
  Proof.
    induction seq as [|a seq IH]; intros n x y h rx H Hn Hok Hr; cbn [length fp_update_seq_loop update_seq_loop ok_run] in *.
    - exists x, y, rx. rewrite app_nil_r, Nat.add_0_r. auto.
    - destruct Hok as [Ha Hok]. destruct (ptnear_step n x y a h H ltac:(lia) Ha) as (x1 & y1 & Ux & Uy & H1).
      rewrite Ux, Uy. cbn [bind].
      assert (Hr1 : Rabs (f_add F rx (f_sub F (pt_lp x1) (pt_lp x)) - pt_lp x1) <= INR (S n) * nu).
      { pose proof (pt_diff _ _ _ _ _ H H1 ltac:(lia)) as Hd.
        destruct H1 as (d1 & _ & _ & _ & _ & G5 & G6). pose proof (nsmall (S n) ltac:(lia)) as T1. pose proof (nsmall n ltac:(lia)) as T2.
        pose proof B0 as HB0. pose proof nu1 as Hnu1.
        assert (HuB : u * (2 * B + 3) + u * (B + 3) <= nu).
        { unfold nu. assert (0 <= u * 14) by lra. lra. }
        assert (Hub : 0 <= u * (B + 3)) by (apply Rmult_le_pos; lra).
        apply abs_le in Hr, Hd, G5, G6. set (r := f_sub F _ _) in *.
        assert (Ha2 : Rabs (f_add F rx r - (rx + r)) <= u * (B + 3)) by (apply (add_err F u big max HF Hu); [apply Rabs_le; lra|lra]).
        apply abs_le in Ha2. rewrite S_INR. apply Rabs_le. lra. }
      replace (pt_lp y + (pt_lp y1 - pt_lp y)) with (pt_lp y1) by ring.
      destruct (IH (S n) x1 y1 (h ++ [a]) _ H1 ltac:(lia) Hok Hr1) as (x' & y' & rx' & E1 & E2 & E3 & E4).
      exists x', y', rx'. rewrite <- app_assoc in E1, E2. cbn [app] in E1, E2. replace (n + S (length seq))%nat with (S n + length seq)%nat by lia.
      auto.
  Qed.

  Theorem ptw_error seq h : (length seq <= N)%nat -> ok_run ok h seq -> seq <> [] ->
    exists x y r r', fp_update_seq F (FPTW_model F M1 m f1) (ptw_init m f1) seq h 1 = Ok (x, h, r') /\
      update_seq (PTW_model M2 m f2) (ptw_init m f2) seq h 1 = Ok (y, h, r) /\
      Rabs (r' - r) <= 23 * (INR (length seq) * nu).
  Proof.
    intros Hn Hok Hne.
    destruct (ptw_seq seq 0 (ptw_init m f1) (ptw_init m f2) h 0 ptnear_new Hn Hok) as (x & y & r' & E1 & E2 & H1 & H2).
    { cbn. rewrite Rminus_0_r, Rabs_R0. lra. }
    cbn [pt_lp ptw_init Nat.add] in *. exists x, y, (pt_lp y), r'. unfold fp_update_seq, update_seq. rewrite E1, E2. cbn [bind].
    rewrite !clear_suffix by exact Hne. split; [reflexivity|]. split; [reflexivity|].
    destruct H1 as (d & _ & _ & _ & _ & H1 & _). apply abs_le in H1, H2. apply Rabs_le. lra.
  Qed.
End rounding.

(** The two base models of the package that use the KT estimator follow their exact versions. *)
Definition bits_ok (a : Z) (h : list Z) : Prop := bit a /\ incl h [0; 1]%Z.
Lemma bits_run seq : forall h, incl seq [0; 1]%Z -> incl h [0; 1]%Z -> ok_run bits_ok h seq.
Proof.
  induction seq as [|a s IH]; intros h Hs Hh; cbn [ok_run]; [exact I|]. split.
  - split; [|exact Hh]. specialize (Hs a (or_introl eq_refl)). cbn in Hs. unfold bit. destruct Hs as [<- | [<- | []]]; auto.
  - apply IH; [intros z Hz; apply Hs; right; exact Hz|].
    intros z Hz; apply in_app_or in Hz as [Hz|[<- | []]]; [exact (Hh z Hz)|apply Hs; left; reflexivity].
Qed.

Lemma get2_0 (x y : R) : py_get [x; y] 0 = Ok x. Proof. reflexivity. Qed.
Lemma get2_1 (x y : R) : py_get [x; y] 1 = Ok y. Proof. reflexivity. Qed.
Lemma set2_0 (x y z : R) : py_set [x; y] 0 z = Ok [z; y]. Proof. reflexivity. Qed.
Lemma set2_1 (x y z : R) : py_set [x; y] 1 z = Ok [x; z]. Proof. reflexivity. Qed.

Section bases.
  Variables (F : floats) (u big : R) (max : nat).
  Hypothesis HF : accurate F u big max.
  Hypothesis Hu : 0 <= u <= / 64.
  Variable N : nat.
  Hypothesis HN : (0 < N)%nat.
  Hypothesis Hmax : (2 * N + 2 <= max)%nat.
  Let L := ln (2 * INR N + 2).
  Let B := INR N * L + 2.

  Definition ktb_close (n : nat) (x y : ktb) (b : R) : Prop :=
    (exists j k, x = [INR j / 2; INR k / 2] /\ y = x /\ (0 < j)%nat /\ (0 < k)%nat /\ (j + k = 2 * n + 2)%nat) /\ - (INR n * L) <= b <= 0.

  Lemma ktb_tracks : tracks (FKTB_model F) KTB_model ktb_init ktb_init bits_ok N (u * (L + 4)) L 0 ktb_close.
  Proof.
    split.
    - split; [|cbn; lra]. exists 1%nat, 1%nat. cbn. unfold ktb_init. split; [do 2 f_equal; [lra|f_equal; lra]|]. repeat split; lia.
    - intros n x y b [_ H] _. lra.
    - intros n x y b a h [(j & k & -> & -> & Hj & Hk & Hjk) Hb] Hn [Ha _].
      assert (Hkt := fun j k => kt_err F u big max HF Hu N L B HN eq_refl (Rle_refl _) Hmax n j k ltac:(lia)).
      destruct Ha as [-> | ->].
      + destruct (Hkt j k Hj Hk Hjk) as (t & D1 & D2 & D3 & D4 & D5 & D6).
        exists [INR (j + 2) / 2; INR k / 2], [INR (j + 2) / 2; INR k / 2], t, (ln (INR j / INR (j + k))).
        destruct (half_add F u big max HF j k ltac:(lia)) as [A1 A2]. destruct (half_one F u big max HF j ltac:(lia)) as [A3 A4].
        split; [cbn [m_update FKTB_model]; unfold fktb_update, fktb_log_predict; rewrite ?get2_0, ?get2_1; cbn [bind]; rewrite A1, D1; cbn [bind]; rewrite D2; cbn [bind]; rewrite A3, ?set2_0, ?set2_1; reflexivity|].
        split; [cbn [m_update KTB_model]; unfold ktb_update, ktb_log_predict; rewrite ?get2_0, ?get2_1; cbn [bind]; rewrite A2, D3; cbn [bind]; rewrite D4; cbn [bind]; rewrite A4, ?set2_0, ?set2_1; reflexivity|].
        split; [exact D6|]. split; [exists (j + 2)%nat, k; repeat split; lia|]. rewrite S_INR. lra.
      + destruct (Hkt k j Hk Hj ltac:(lia)) as (t & D1 & D2 & D3 & D4 & D5 & D6).
        exists [INR j / 2; INR (k + 2) / 2], [INR j / 2; INR (k + 2) / 2], t, (ln (INR k / INR (k + j))).
        destruct (half_add F u big max HF j k ltac:(lia)) as [A1 A2]. destruct (half_one F u big max HF k ltac:(lia)) as [A3 A4].
        rewrite (Nat.add_comm j k) in A1, A2.
        split; [cbn [m_update FKTB_model]; unfold fktb_update, fktb_log_predict; rewrite ?get2_0, ?get2_1; cbn [bind]; rewrite A1, D1; cbn [bind]; rewrite D2; cbn [bind]; rewrite A3, ?set2_0, ?set2_1; reflexivity|].
        split; [cbn [m_update KTB_model]; unfold ktb_update, ktb_log_predict; rewrite ?get2_0, ?get2_1; cbn [bind]; rewrite A2, D3; cbn [bind]; rewrite D4; cbn [bind]; rewrite A4, ?set2_0, ?set2_1; reflexivity|].
        split; [exact D6|]. split; [exists j, (k + 2)%nat; repeat split; lia|]. rewrite S_INR. lra.
  Qed.

  Variable D : nat.
  Hypothesis HD : (0 < D)%nat.
  Hypothesis Hbig : 2 * B + 6 <= big.
  Hypothesis Hsmall : INR N * u * Kd B D <= 1.

  Definition ctw_close (n : nat) (x y : ctwkt) (b : R) : Prop := near_m u D L B n x y /\ b = k_lp (ck_tree y).

  Lemma ctw_tracks : tracks (FCTWKT_model F) CTWKT_model (ctwkt_init (Z.of_nat D)) (ctwkt_init (Z.of_nat D)) bits_ok N
    (INR N * u * ((2 * INR D + 3) * K B)) L 1 ctw_close.
  Proof.
    assert (HK : 0 <= u * ((2 * INR D + 3) * K B)).
    { apply Rmult_le_pos; [lra|]. pose proof (pos_INR D). pose proof (K0 max N L B HN eq_refl (Rle_refl _) Hmax). apply Rmult_le_pos; lra. }
    split.
    - split; [apply (near_init u max N D L B HN Hmax)|reflexivity].
    - intros n x y b [(_ & _ & H) ->] Hn. pose proof (near_lp u max Hu N L B HN eq_refl (Rle_refl _) Hmax _ _ _ _ H). lra.
    - intros n x y b a h [H ->] Hn [Ha Hh].
      destruct (model_step F u big max HF Hu N D L B HN eq_refl (Rle_refl _) Hmax Hbig Hsmall HD n x y a h H Hn Ha Hh) as (x' & y' & Ux & Uy & H').
      destruct (predict_err F u big max HF Hu N D L B HN eq_refl (Rle_refl _) Hmax Hbig Hsmall HD n x y a h H Hn Ha Hh) as (p & q & P1 & Q1 & HE).
      rewrite (model_predict_is_update F x a h 1), Ux in P1. injection P1 as <-.
      rewrite <- exact_model, (model_predict_is_update exact y a h 1), exact_model, Uy in Q1. injection Q1 as <-.
      eexists _, _, _, _. split; [exact Ux|]. split; [exact Uy|]. split; [|split; [exact H'|ring]].
      eapply Rle_trans; [exact HE|]. rewrite !Rmult_assoc. apply le_INR in Hn. apply Rmult_le_compat_r; assumption.
  Qed.
End bases.

Section top.
  Context (F : floats) (u big : R) (max m : nat).
  Hypothesis HF : accurate F u big max.
  Hypothesis Hu : 0 <= u <= / 64.

  Theorem ptw_any {S1 S2} (M1 : model S1) (M2 : model S2) f1 f2 ok eps L c close seq h :
    let n := length seq in tracks M1 M2 f1 f2 ok n eps L c close -> 0 <= L -> 0 <= c -> 0 <= eps ->
    ok_run ok h seq -> seq <> [] -> 2 * ptw_size n L c + 6 <= big -> 25 * (INR n * ptw_loss u n L c eps) <= 1 ->
    exists x y r r', fp_update_seq F (FPTW_model F M1 m f1) (ptw_init m f1) seq h 1 = Ok (x, h, r') /\
      update_seq (PTW_model M2 m f2) (ptw_init m f2) seq h 1 = Ok (y, h, r) /\
      Rabs (r' - r) <= 23 * (INR n * ptw_loss u n L c eps).
  Proof.
    intros n HT HL Hc Heps Hok Hne Hbig Hsm.
    assert (HN : (0 < n)%nat) by (unfold n; destruct seq; [congruence|cbn; lia]).
    exact (ptw_error F u big max HF Hu M1 M2 f1 f2 ok n eps L c close HT m (ptw_size n L c) HN HL Hc Heps (Rle_refl _) Hbig Hsm
      seq h (le_n _) Hok Hne).
  Qed.

  Variables (seq h : list Z).
  Hypothesis Hs : incl seq [0; 1]%Z.
  Hypothesis Hh : incl h [0; 1]%Z.
  Hypothesis Hne : seq <> [].
  Let n := length seq.
  Lemma most0 : 0 <= kt_most n.
  Proof. unfold kt_most. rewrite <- ln_1. pose proof (pos_INR n). apply ln_le; lra. Qed.

  Theorem ptw_kt : let loss := ptw_loss u n (kt_most n) 0 (u * (kt_most n + 4)) in
    (2 * n + 2 <= max)%nat -> 2 * ptw_size n (kt_most n) 0 + 6 <= big -> 25 * (INR n * loss) <= 1 ->
    exists x y r r', fp_update_seq F (FPTW_model F (FKTB_model F) m ktb_init) (ptw_init m ktb_init) seq h 1 = Ok (x, h, r') /\
      update_seq (PTW_model KTB_model m ktb_init) (ptw_init m ktb_init) seq h 1 = Ok (y, h, r) /\
      Rabs (r' - r) <= 23 * (INR n * loss).
  Proof.
    intros loss Hmax Hbig Hsm. pose proof most0 as HL.
    assert (HN : (0 < n)%nat) by (unfold n; destruct seq; [congruence|cbn; lia]).
    refine (ptw_any _ _ _ _ bits_ok _ _ _ _ seq h (ktb_tracks F u big max HF Hu n HN Hmax) HL (Rle_refl _) _ (bits_run seq h Hs Hh) Hne Hbig Hsm).
    change (0 <= u * (kt_most n + 4)). apply Rmult_le_pos; lra.
  Qed.

  Theorem ptw_ctw D : let eps := INR n * u * ((2 * INR D + 3) * allowance n) in let loss := ptw_loss u n (kt_most n) 1 eps in
    (0 < D)%nat -> (2 * n + 2 <= max)%nat -> allowance n <= big -> INR n * u * ((INR D + 1) * allowance n) <= 1 ->
    2 * ptw_size n (kt_most n) 1 + 6 <= big -> 25 * (INR n * loss) <= 1 ->
    exists x y r r',
      fp_update_seq F (FPTW_model F (FCTWKT_model F) m (ctwkt_init (Z.of_nat D))) (ptw_init m (ctwkt_init (Z.of_nat D))) seq h 1 = Ok (x, h, r') /\
      update_seq (PTW_model CTWKT_model m (ctwkt_init (Z.of_nat D))) (ptw_init m (ctwkt_init (Z.of_nat D))) seq h 1 = Ok (y, h, r) /\
      Rabs (r' - r) <= 23 * (INR n * loss).
  Proof.
    intros eps loss HD Hmax Ha1 Ha2 Hbig Hsm. pose proof most0 as HL. pose proof (pos_INR n) as Pn.
    assert (HN : (0 < n)%nat) by (unfold n; destruct seq; [congruence|cbn; lia]).
    assert (P0 : 0 <= INR n * kt_most n) by (apply Rmult_le_pos; lra). unfold kt_most in P0.
    assert (A1 : 2 * (INR n * ln (2 * INR n + 2) + 2) + 6 <= big) by (unfold allowance in Ha1; lra).
    refine (ptw_any _ _ _ _ bits_ok _ _ _ _ seq h (ctw_tracks F u big max HF Hu n HN Hmax D HD A1 Ha2) HL Rle_0_1 _ (bits_run seq h Hs Hh) Hne Hbig Hsm).
    apply Rmult_le_pos; [apply Rmult_le_pos; lra|]. apply Rmult_le_pos; [pose proof (pos_INR D); lra|]. unfold K. lra.
  Qed.
End top.
