(** Predictions of PTW computed with rounding. *)
From Coq Require Import Lra Lia.
From Verif Require Import Spec.FloatsNestSpec.
From Verif Require Import Proofs.RealFacts Proofs.PyFacts Proofs.ProbFacts Proofs.KTRedundancy Proofs.PTWFacts Proofs.FloatsFacts Proofs.FloatsChop Proofs.FloatsCTW Proofs.FloatsKTAny Proofs.FloatsPTW Proofs.FloatsAnyTop Proofs.FloatsPTWSteady.
Open Scope R_scope.

Section rounding.
  Variables (F : floats) (u big : R) (max : nat).
  Hypothesis HF : accurate F u big max.
  Hypothesis Hu : 0 <= u <= / 64.
  Context {S1 S2 : Type} (M1 : model S1) (M2 : model S2) (f1 : S1) (f2 : S2) (ok : Z -> list Z -> Prop)
    (N : nat) (eps L c : R) (close : nat -> S1 -> S2 -> R -> Prop).
  Hypothesis HT : tracks M1 M2 f1 f2 ok N eps L c close.
  Hypothesis A1 : agrees M1.
  Hypothesis A2 : agrees M2.
  Variable m : nat.
  Variable B : R.
  Hypothesis HN : (0 < N)%nat.
  Hypothesis HL : 0 <= L.
  Hypothesis Hc : 0 <= c.
  Hypothesis Heps : 0 <= eps.
  Hypothesis HB : 4 * INR N * (L + c + 2) + 8 <= B.
  Hypothesis Hbig : 2 * B + 6 <= big.
  Hypothesis Hsmall : 25 * (INR N * nu u eps B) <= 1.
  Notation nu := (nu u eps B).
  Notation mu := (mu u B).
  Notation node_err := (node_err u eps B).
  Notation near := (pnear u eps L c close m B).

  (** one node *)
  Lemma node_predict : forall x y d n a h, near d n x y -> (S n <= N)%nat -> ok a h ->
    let d' := if Nat.eqb n (2 ^ (m + d)) then S d else d in
    exists p q bx by', fpnode_log_predict F M1 x a h = Ok (p, bx, (m + d')%nat) /\ pnode_log_predict M2 y a h = Ok (q, by', (m + d')%nat) /\
      Rabs (bx - by') <= INR (S n) * nu /\ - (INR (S n) * L + c) <= by' <= 0 /\
      Rabs (p - q) <= node_err d' (S n) /\ - (INR (S n) * L + c) - 1 <= q <= 0.
  Proof.
    intros x. induction x as [bx hx cx blx llx lx rx IH] using pnode_nest. intros [by' hy cy bly lly ly ry] d n a h Hnear Hn Ha.
    pose proof (pnear_fields u Hu M1 M2 f1 f2 ok N eps L c close HT m B HN _ _ _ _ Hnear) as (F1 & F2 & F3 & F4 & F5 & F6 & F7 & F8 & F9 & _).
    pose proof (complete_near N m HN _ _ _ F1 F3 F5) as C1. pose proof (complete_near N m HN _ _ _ F2 F4 F5) as C2.
    cbn [pnear p_height p_count p_blp p_lp] in *. destruct Hnear as (Hcl & -> & -> & -> & -> & _ & _ & _ & _ & Hr).
    destruct (base_step F u big max HF Hu M1 M2 f1 f2 ok N eps L c close HT B HN HL Hc Heps HB Hbig Hsmall n bx by' bly blx a h Hcl Hn Ha F6) as (bx' & by'' & l1 & l2 & E1 & E2 & Hcl' & Hbl & Rbl).
    pose proof (A1 bx a h 1) as P1. rewrite E1 in P1. cbn [bind] in P1. pose proof (A2 by' a h 1) as P2. rewrite E2 in P2. cbn [bind] in P2.
    cbn [fpnode_log_predict pnode_log_predict]. rewrite <- P1, <- P2, C1, C2. cbn [bind].
    pose proof (nu0 u Hu N eps L c B HN HL Hc Heps HB) as Hnu0. pose proof (nu1 u Hu N eps L c B HN HL Hc Heps HB Hsmall) as Hnu1.
    destruct (mu_nu u Hu N eps L c B HN HL Hc Heps HB) as [Hmu Hmu2]. pose proof (B0 N L c B HN HL Hc HB) as HB0.
    assert (Hub : 0 <= u * (B + 3)) by (apply Rmult_le_pos; lra).
    destruct (nB N L c B HN HL Hc HB (S n) Hn) as [HnL HB2].
    destruct (Nat.eqb_spec n (2 ^ (m + d))) as [En|En].
    - (* about to be promoted *)
      eexists _, _, _, _. rewrite <- !plus_n_Sm. split; [reflexivity|]. split; [reflexivity|].
      split; [exact Hbl|]. split; [exact Rbl|].
      destruct (nB N L c B HN HL Hc HB n ltac:(lia)) as [HnL' _].
      assert (Hpn : INR (2 ^ S d) <= 2 * INR n) by (rewrite INR_pow_S, En; pose proof (INR_pow_add m d); lra).
      pose proof (nsmall u Hu N eps L c B HN HL Hc Heps HB Hsmall n ltac:(lia)) as Sn. pose proof (INR_pow_1 d) as Pd.
      assert (W : INR (2 ^ S d) * nu <= 2 * (INR n * nu)) by nra.
      assert (W2 : 2 * nu <= INR (2 ^ S d) * nu) by (apply Rmult_le_compat_r; [lra|]; rewrite INR_pow_S; lra).
      assert (E : node_err d n <= 1) by (unfold FloatsPTW.node_err; lra).
      assert (E' : INR (S n) * nu <= node_err d n) by (rewrite S_INR; unfold FloatsPTW.node_err; lra).
      split.
      + eapply Rle_trans; [apply (mix_gen F u big max HF Hu N eps L c B HN HL Hc Heps HB Hbig Hsmall _ (bly + l2) _ ly (node_err d n)); try lra; exact F7|].
        unfold FloatsPTW.node_err. rewrite (INR_pow_S (S d)), S_INR. lra.
      + apply mix_bounds; lra.
    - destruct rx as [rx|], ry as [ry|]; try contradiction.
      + destruct Hr as (d' & dr & nr & -> & Hdr & Hnr & Hnr0 & El & Rl & Hrn).
        destruct (IH ry dr nr a h Hrn ltac:(lia) Ha) as (p & q & rbx & rby & D1 & D2 & G6 & G9 & G7 & G8).
        rewrite D1, D2. cbn [bind]. eexists _, _, _, _. split; [reflexivity|]. split; [reflexivity|]. split; [exact Hbl|]. split; [exact Rbl|].
        set (dr' := if Nat.eqb nr (2 ^ (m + dr)) then S dr else dr) in *.
        assert (Hdr' : (dr' <= d')%nat).
        { unfold dr'. destruct (Nat.eqb_spec nr (2 ^ (m + dr))) as [En'|]; [|exact Hdr].
          assert (dr <> d'); [|lia]. intros ->. apply En. rewrite <- plus_n_Sm. cbn [Nat.pow]. lia. }
        replace (m + S d' - (m + dr') - 1)%nat with (d' - dr')%nat by lia.
        set (k := (d' - dr')%nat). replace d' with (dr' + k)%nat in * by lia.
        destruct (nB N L c B HN HL Hc HB (S nr) ltac:(lia)) as [HnL2 _]. pose proof (IN1 N HN) as HIN.
        pose proof (pow_gap dr' k) as Hgap. pose proof (pos_INR k) as Pk. pose proof (INR_pow_1 (S dr')) as P1'.
        assert (Hkm : INR k * mu <= INR k * nu) by (apply Rmult_le_compat_l; lra).
        assert (Hsum : node_err dr' (S nr) + INR k * mu <= node_err (dr' + k) (S nr)).
        { unfold FloatsPTW.node_err. assert ((INR (2 ^ S dr') + INR k) * nu <= INR (2 ^ S (dr' + k)) * nu) by (apply Rmult_le_compat_r; lra). lra. }
        assert (Hsm : node_err (dr' + k) (S nr) <= 1).
        { unfold FloatsPTW.node_err. rewrite INR_pow_S. pose proof (INR_pow_add m (dr' + k)) as Hp.
          pose proof (nsmall u Hu N eps L c B HN HL Hc Heps HB Hsmall n ltac:(lia)) as Sn. assert (En2 : INR n = INR (2 ^ (m + (dr' + k))) + INR nr) by (rewrite Hnr; apply plus_INR).
          rewrite S_INR. assert (0 <= INR nr * nu) by (apply Rmult_le_pos; [apply pos_INR|lra]).
          assert (INR (2 ^ (dr' + k)) * nu <= INR (2 ^ (m + (dr' + k))) * nu) by (apply Rmult_le_compat_r; lra).
          assert (INR n * nu = INR (2 ^ (m + (dr' + k))) * nu + INR nr * nu) by (rewrite En2; ring). lra. }
        assert (Hlift : Rabs (flift F k rbx p - lift k rby q) <= node_err (dr' + k) (S nr)).
        { eapply Rle_trans; [apply (lift_err F u big max HF Hu N eps L c B HN HL Hc Heps HB Hbig Hsmall k _ _ _ _ (INR (S nr) * L + c) (node_err dr' (S nr))); try assumption; try lra|lra].
          eapply Rle_trans; [exact G6|]. unfold FloatsPTW.node_err. assert (1 * nu <= INR (2 ^ S dr') * nu) by (apply Rmult_le_compat_r; lra). lra. }
        assert (Rlift : - (INR (S nr) * L + c) - 1 <= lift k rby q <= 0) by (apply (lift_range B); lra).
        exact (join F u big max HF Hu N eps L c m B HN HL Hc Heps HB Hbig Hsmall (dr' + k) (S n) (2 ^ (m + (dr' + k))) (S nr) (f_add F blx l1) (bly + l2) llx lly _ _ ltac:(lia) Hn eq_refl ltac:(lia)
          Hbl Rbl El Rl Hlift Rlift).
      + destruct Hr as (-> & -> & ->). eexists _, _, _, _. split; [reflexivity|]. split; [reflexivity|].
        split; [exact Hbl|]. split; [exact Rbl|].
        split; [eapply Rle_trans; [exact Hbl|]; unfold FloatsPTW.node_err; change (INR (2 ^ 1)) with 2; lra|lra].
  Qed.

  (** the whole *)
  Lemma ptw_predict n x y a h : ptnear u eps L c close m B n x y -> (S n <= N)%nat -> ok a h ->
    exists p q, m_logp (FPTW_model F M1 m f1) x a h = Ok p /\ m_logp (PTW_model M2 m f2) y a h = Ok q /\ Rabs (p - q) <= 45 * (INR N * nu).
  Proof.
    intros (d & H1 & H2 & H3 & H4 & H5 & H6) Hn Ha.
    pose proof (pnear_fields u Hu M1 M2 f1 f2 ok N eps L c close HT m B HN _ _ _ _ H1) as (F1 & F2 & F3 & F4 & F5 & F6 & F7 & F8 & F9 & F10). specialize (F9 ltac:(lia)).
    pose proof (complete_near N m HN _ _ _ F1 F3 F5) as C1. pose proof (complete_near N m HN _ _ _ F2 F4 F5) as C2.
    destruct (node_predict _ _ _ _ a h H1 Hn Ha) as (p & q & bx & by' & E1 & E2 & _ & _ & Ep & Rq).
    cbn [FPTW_model PTW_model m_logp]. unfold fptw_log_predict, ptw_log_predict. rewrite C1, C2, E1, E2. cbn [bind].
    set (d' := if Nat.eqb n (2 ^ (m + d)) then S d else d) in *.
    match goal with |- context [f_add F p ?a1] => set (s := a1) end. match goal with |- context [q + ?a2] => set (t := a2) end.
    exists (f_sub F (f_add F p s) (pt_lp x)), (q + t - pt_lp y). split; [reflexivity|]. split; [reflexivity|].
    pose proof (nu0 u Hu N eps L c B HN HL Hc Heps HB) as Hnu0. pose proof (nu1 u Hu N eps L c B HN HL Hc Heps HB Hsmall) as Hnu1.
    destruct (mu_nu u Hu N eps L c B HN HL Hc Heps HB) as [Hmu Hmu2]. pose proof (B0 N L c B HN HL Hc HB) as HB0.
    destruct (Lam0 N L c B HL Hc HB) as [HL0 HL1].
    assert (Hub : 0 <= u * (B + 3) <= nu) by (split; [apply Rmult_le_pos; lra|lra]).
    destruct (nB N L c B HN HL Hc HB (S n) Hn) as [HnL HB2]. destruct (nB N L c B HN HL Hc HB n ltac:(lia)) as [HnL' _].
    pose proof (nsmall u Hu N eps L c B HN HL Hc Heps HB Hsmall (S n) Hn) as Sn. pose proof (nsmall u Hu N eps L c B HN HL Hc Heps HB Hsmall n ltac:(lia)) as Sn'.
    set (Lm := Lam L c) in *. pose proof (IN1 N HN) as HIN.
    assert (NL2 : INR N * L + c + 2 <= INR N * Lm) by (assert (1 * (c + 2) <= INR N * (c + 2)) by (apply Rmult_le_compat_r; lra); unfold Lm, Lam; lra).
    assert (NL : INR (S n) * Lm <= INR N * Lm) by (apply Rmult_le_compat_r; [lra|apply le_INR; exact Hn]).
    assert (NN : INR (S n) * nu <= INR N * nu) by (apply Rmult_le_compat_r; [lra|apply le_INR; exact Hn]).
    assert (N1 : 1 * nu <= INR (S n) * nu) by (apply Rmult_le_compat_r; [lra|apply (le_INR 1); lia]).
    assert (NS : INR (S n) * nu = INR n * nu + nu) by (rewrite S_INR; ring).
    assert (NSL : INR (S n) * Lm = INR n * Lm + Lm) by (rewrite S_INR; ring).
    assert (A : Rabs (s - t) <= 16 * (INR (S n) * nu) /\ Rabs t <= 2 * (INR (S n) * Lm)).
    { unfold s, t. destruct (Nat.eqb_spec n (2 ^ (m + d))) as [En|En].
      - rewrite <- En in H2, H3.
        assert (E3 : node_err d n <= 3 * (INR n * nu)).
        { unfold FloatsPTW.node_err. assert (INR (2 ^ S d) * nu <= 2 * INR n * nu); [|lra]. apply Rmult_le_compat_r; [lra|].
          rewrite INR_pow_S, En. pose proof (INR_pow_add m d). lra. }
        assert (P1 : 0 <= INR n * nu) by (apply Rmult_le_pos; [apply pos_INR|lra]).
        assert (P2 : 1 <= INR n) by (rewrite En; apply INR_pow_1).
        assert (NL3 : INR n * L + c + 2 <= INR n * Lm) by (unfold Lm, Lam; nra).
        set (l := p_lp (pt_tree x)) in *. set (l' := p_lp (pt_tree y)) in *. set (b := p_blp (pt_tree x)) in *. set (b' := p_blp (pt_tree y)) in *.
        assert (Hmix : Rabs (f_add F (fp_log_0_5 F) (fp_logsumexp2 F b l) - (log_0_5 + logsumexp2 b' l')) <= 3 * (INR n * nu) + mu).
        { apply (mix_gen F u big max HF Hu N eps L c B HN HL Hc Heps HB Hbig Hsmall); lra. }
        pose proof (mix_bounds b' l' (INR n * L + c) ltac:(lra) ltac:(lra)) as Rm.
        set (x1 := f_add F (fp_log_0_5 F) _) in *. set (x2 := log_0_5 + _) in *.
        set (ax := pt_adj x) in *. set (ay := pt_adj y) in *. apply abs_le in F7, H2, H3, Hmix.
        assert (G1 : Rabs (f_add F ax l - (ax + l)) <= u * (B + 3)) by (apply (add_err F u big max HF Hu); [apply Rabs_le; lra|lra]).
        apply abs_le in G1. set (x3 := f_add F ax l) in *.
        assert (G2 : Rabs (f_sub F x3 x1 - (x3 - x1)) <= u * (B + 3)) by (apply (sub_err F u big max HF Hu); [apply Rabs_le; lra|lra]).
        apply abs_le in G2. set (x4 := f_sub F x3 x1) in *. clearbody x1 x2 x3 x4. split; apply Rabs_le; lra.
      - destruct F10 as [E0 | (d1 & E0 & Hd1)].
        + destruct (H4 E0) as [-> ->]. rewrite Rminus_0_r, Rabs_R0. split; [lra|]. apply Rmult_le_pos; [lra|]. apply Rmult_le_pos; [apply pos_INR|lra].
        + rewrite E0 in H2, H3. replace (m + S d1)%nat with (S (m + d1)) in H2, H3 by lia. rewrite INR_pow_S in H2, H3. apply lt_INR in Hd1.
          assert (INR (2 ^ (m + d1)) * nu <= INR n * nu) by (apply Rmult_le_compat_r; lra).
          assert (INR (2 ^ (m + d1)) * Lm <= INR n * Lm) by (apply Rmult_le_compat_r; lra). split; lra. }
    clearbody s t. destruct A as [A3 A4].
    assert (E5 : node_err d' (S n) <= 5 * (INR (S n) * nu)).
    { unfold FloatsPTW.node_err. assert (INR (2 ^ S d') - 1 <= 4 * INR (S n)).
      { unfold d'. destruct (Nat.eqb_spec n (2 ^ (m + d))) as [En|En].
        - rewrite !INR_pow_S, S_INR. pose proof (INR_pow_add m d). rewrite <- En in H. lra.
        - rewrite S_INR. destruct F10 as [-> | (d1 & -> & Hd1)]; [change (INR (2 ^ 1)) with 2; pose proof (pos_INR n); lra|].
          rewrite !INR_pow_S. apply lt_INR in Hd1. pose proof (INR_pow_add m d1). lra. }
      assert ((INR (2 ^ S d') - 1) * nu <= 4 * INR (S n) * nu) by (apply Rmult_le_compat_r; lra). lra. }
    apply abs_le in Ep, H5, H6, A3, A4.
    assert (G1 : Rabs (f_add F p s - (p + s)) <= u * (B + 3)) by (apply (add_err F u big max HF Hu); [apply Rabs_le; lra|lra]).
    apply abs_le in G1. set (x3 := f_add F p s) in *. clearbody x3.
    assert (G2 : Rabs (f_sub F x3 (pt_lp x) - (x3 - pt_lp x)) <= u * (2 * B + 3)) by (apply (sub_err F u big max HF Hu); [apply Rabs_le; lra|lra]).
    assert (HuB : u * (2 * B + 3) <= nu) by (unfold FloatsPTW.nu; assert (0 <= u * B) by (apply Rmult_le_pos; lra); lra).
    apply abs_le in G2. apply Rabs_le. lra.
  Qed.
End rounding.

Section top.
  Variables (F : floats) (u big : R) (max : nat).
  Hypothesis HF : accurate F u big max.
  Hypothesis Hu : 0 <= u <= / 64.

  (** after any updates *)
  Theorem ptw_predictions {S1 S2} (M1 : model S1) (M2 : model S2) f1 f2 A okh N eps L close : steady M1 M2 f1 f2 A okh N eps L close ->
    agrees M1 -> agrees M2 -> forall m, (0 < N)%nat -> 0 <= L -> 0 <= eps ->
    2 * ptw_size N L 0 + 6 <= big -> 25 * (INR N * ptw_loss u N L 0 eps) <= 1 ->
    forall evs a h, (length evs < N)%nat -> Forall (ok_event A okh (eq 1)) evs -> In a A -> okh h ->
    exists x y lx ly p q, run (FPTW_model F M1 m f1) (ptw_init m f1) evs = Ok (x, lx) /\ run (PTW_model M2 m f2) (ptw_init m f2) evs = Ok (y, ly) /\
      m_logp (FPTW_model F M1 m f1) x a h = Ok p /\ m_logp (PTW_model M2 m f2) y a h = Ok q /\ Rabs (p - q) <= 45 * (INR N * ptw_loss u N L 0 eps).
  Proof.
    intros HT A1 A2 m HN HL Heps Hb Hs evs a h Hl Hev Ha Hh.
    pose proof (ptw_steady F u big max HF Hu M1 M2 f1 f2 A okh N eps L close HT m HN HL Heps Hb Hs) as HP.
    destruct (steady_run _ _ _ _ _ _ _ _ _ _ HP evs 0 _ _ (sd_new _ _ _ _ _ _ _ _ _ _ HP) ltac:(lia) Hev) as (x & y & lx & ly & R1 & R2 & R3 & _).
    pose proof (steady_tracks M1 M2 f1 f2 A okh N eps L close HT HL) as T.
    assert (HB : 4 * INR N * (L + 0 + 2) + 8 <= ptw_size N L 0) by (unfold ptw_size; lra).
    destruct (ptw_predict F u big max HF Hu M1 M2 f1 f2 _ N eps L 0 _ T A1 A2 m _ HN HL (Rle_refl 0) Heps HB Hb Hs _ x y a h R3 ltac:(lia) (conj Ha Hh)) as (p & q & P1 & P2 & P3).
    exists x, y, lx, ly, p, q. auto 10.
  Qed.
End top.

(** With 52 digits: PTW over CTW of depth 8 over KT, seven of three symbols. *)
Lemma predict_example : let u := powerRZ 2 (-52) in let F := chopped 52 in let L := kt_worst 3 7 in let eps := ctw_off u 7 8 L (kt_off u 3 7) in
  accurate F u 10000 (Z.to_nat (2 ^ 52)) /\ 0 <= u <= / 64 /\
  (exists f1 close, fkt_init F [0; 1; 2]%Z = Ok f1 /\
    let M1 := FCTW_model F (FKT_model F) f1 false in let M2 := CTW_model KT_model (kt_init [0; 1; 2]%Z) false in
    steady M1 M2 (ctw_init f1 (Z.of_nat 8)) (ctw_init (kt_init [0; 1; 2]%Z) (Z.of_nat 8)) [0; 1; 2]%Z (okctx any_hist [0; 1; 2]%Z) 7 eps L close /\
    agrees M1 /\ agrees M2) /\
  0 <= L /\ 0 <= eps /\ 2 * ptw_size 7 L 0 + 6 <= 10000 /\ 45 * (INR 7 * ptw_loss u 7 L 0 eps) <= / 100000.
Proof.
  cbv zeta. destruct any_example as (H1 & H2 & H3 & _ & _ & H5 & _ & H6 & H7 & _). set (u := powerRZ 2 (-52)) in *.
  assert (HA : NoDup [0; 1; 2]%Z) by (repeat constructor; cbn; intuition discriminate).
  split; [exact H1|]. split; [exact H2|]. split.
  - destruct (ctw_kt_steady (chopped 52) u 10000 _ H1 H2 (/ 1000) H3 [0; 1; 2]%Z HA ltac:(discriminate) [0; 1; 2]%Z 8%nat HA ltac:(cbn; auto) ltac:(lia) 7%nat ltac:(lia) H5)
      as (f1 & close & Hf & HT & _). exists f1, close. split; [exact Hf|]. split; [exact HT|].
    split; [apply FloatsAnyTop.ctw_agrees, FloatsKTAny.kt_agrees|apply AgreeFacts.ctw_agrees, AgreeFacts.kt_agrees].
  - destruct H5 as (R1 & R2 & _).
    pose proof (FloatsKTAny.L_pos u (/ 1000) [0; 1; 2]%Z 7 HA ltac:(discriminate) ltac:(lia) R1 R2) as HL. change (length [0; 1; 2]%Z) with 3%nat in HL.
    pose proof (FloatsKTAny.off_pos u (/ 1000) H2 [0; 1; 2]%Z 7 HA ltac:(discriminate) ltac:(lia) R1 R2) as HO. change (length [0; 1; 2]%Z) with 3%nat in HO.
    split; [exact HL|]. split; [|split; [exact H6|lra]].
    unfold ctw_off, ctw_drift, ctw_room. set (L := kt_worst 3 7) in *. pose proof (pos_INR 7) as P7. pose proof (pos_INR 10) as P10.
    assert (0 <= INR 7 * L) by (apply Rmult_le_pos; lra).
    assert (0 <= u * (4 * (INR 7 * L + 2) + 22)) by (apply Rmult_le_pos; lra).
    assert (0 <= INR 10 * (u * (4 * (INR 7 * L + 2) + 22))) by (apply Rmult_le_pos; lra).
    apply Rmult_le_pos; lra.
Qed.
