(** PTW computed with rounding follows the exact PTW, step by step. *)
From Coq Require Import Lra Lia.
From Verif Require Import Spec.FloatsAnySpec.
From Verif Require Import Proofs.RealFacts Proofs.PyFacts Proofs.KTRedundancy Proofs.PTWFacts Proofs.FloatsFacts Proofs.FloatsCTW Proofs.FloatsPTW Proofs.FloatsAnyTop.
Open Scope R_scope.

Lemma mix_within L a b a' b' : - L <= a' - a <= 0 -> - L <= b' - b <= 0 ->
  - L <= (log_0_5 + logsumexp2 a' b') - (log_0_5 + logsumexp2 a b) <= 0.
Proof.
  intros Ha Hb. pose proof (lse2_mono a b a' b' L ltac:(lra) ltac:(lra)). pose proof (lse2_mono a' b' a b 0 ltac:(lra) ltac:(lra)). lra.
Qed.
Lemma lift_within L k : forall b x b' x', - L <= b' - b <= 0 -> - L <= x' - x <= 0 -> - L <= lift k b' x' - lift k b x <= 0.
Proof. induction k as [|k IH]; intros b x b' x' Hb Hx; cbn [lift]; [exact Hx|]. apply IH; [exact Hb|]. apply mix_within; assumption. Qed.
Lemma mix_zero : log_0_5 + logsumexp2 0 0 = 0.
Proof. destruct ln2_le as [_ ->]. rewrite logsumexp2_spec, exp_0. replace (1 + 1) with 2 by lra. lra. Qed.
Lemma lift_zero k : lift k 0 0 = 0.
Proof. induction k as [|k IH]; cbn [lift]; [reflexivity|]. rewrite mix_zero. exact IH. Qed.
Lemma lift_S k b x : lift (S k) b x = lift k b (log_0_5 + logsumexp2 b x).
Proof. reflexivity. Qed.

(** The exact PTW: if the values of the base model lie between -L and 0, so do those of PTW. *)
Section exact.
  Context {S2 : Type} (M : model S2) (fresh : S2) (A : list Z) (okh : list Z -> Prop) (N : nat) (L : R) (P : nat -> S2 -> Prop) (m : nat).
  Hypothesis HN : (0 < N)%nat.
  Hypothesis H0 : P 0%nat fresh.
  Hypothesis HP : forall n y a h, P n y -> (S n <= N)%nat -> In a A -> okh h ->
    exists y' l, m_update M y a h 1 = Ok (y', l) /\ - L <= l <= 0 /\ P (S n) y'.

  Fixpoint whole (d n : nat) (y : pnode S2) {struct y} : Prop :=
    let '(PNode b h c bl ll l r) := y in
    P n b /\ h = (m + d)%nat /\ c = n /\ (n <= 2 ^ (m + d))%nat /\
    match r with
    | None => d = O /\ l = bl
    | Some r => exists d' dr nr, d = S d' /\ (dr <= d')%nat /\ n = (2 ^ (m + d') + nr)%nat /\ (0 < nr)%nat /\
        l = log_0_5 + logsumexp2 bl (ll + lift (d' - dr) (p_blp r) (p_lp r)) /\ whole dr nr r
    end.
  Definition view (d n : nat) (y : pnode S2) : R :=
    if Nat.eqb n (2 ^ (m + d)) then log_0_5 + logsumexp2 (p_blp y) (p_lp y) else p_lp y.

  Lemma whole_fields d n y : whole d n y -> p_height y = (m + d)%nat /\ p_count y = n /\ (n <= 2 ^ (m + d))%nat.
  Proof. destruct y as [b h c bl ll l r]. cbn [whole p_height p_count]. tauto. Qed.
  Lemma whole_complete d n y : whole d n y -> partition_is_complete y = Nat.eqb n (2 ^ (m + d)).
  Proof. intros H. apply whole_fields in H as (H1 & H2 & H3). exact (complete_near N m HN y d n H1 H2 H3). Qed.

  Lemma whole_step : forall y d n a h, whole d n y -> (S n <= N)%nat -> In a A -> okh h ->
    exists y', pnode_update M m fresh y a h 1 = Ok y' /\ whole (if Nat.eqb n (2 ^ (m + d)) then S d else d) (S n) y' /\
      - L <= p_blp y' - p_blp y <= 0 /\ - L <= p_lp y' - view d n y <= 0.
  Proof.
    intros y. induction y as [b hh c bl ll l r IH] using pnode_nest. intros d n a h Hw Hn Ha Hh.
    pose proof (whole_complete _ _ _ Hw) as C. cbn [whole] in Hw. destruct Hw as (Hb & -> & -> & Hle & Hr).
    destruct (HP n b a h Hb Hn Ha Hh) as (b' & l1 & E1 & R1 & Hb').
    cbn [pnode_update view p_blp p_lp]. unfold view. cbn [p_blp p_lp]. rewrite C. destruct (Nat.eqb_spec n (2 ^ (m + d))) as [En|En].
    - rewrite E1. cbn [bind]. destruct (HP 0%nat fresh a h H0 HN Ha Hh) as (rb & rl & E2 & R2 & Hrb). rewrite E2. cbn [bind].
      eexists. split; [reflexivity|]. replace (S (m + d) - m - 1)%nat with d by lia. cbn [p_blp p_lp].
      assert (Hl : - L <= lift d (0 + rl) (0 + rl) - lift d 0 0 <= 0) by (apply lift_within; lra). rewrite lift_zero in Hl.
      split; [|split; [lra|apply mix_within; lra]].
      cbn [whole]. split; [exact Hb'|]. split; [lia|]. split; [lia|]. split; [rewrite <- plus_n_Sm; cbn [Nat.pow]; pose proof (pow_pos (m + d)); lia|].
      exists d, 0%nat, 1%nat. split; [reflexivity|]. split; [lia|]. split; [lia|]. split; [lia|]. split; [rewrite Nat.sub_0_r; reflexivity|].
      cbn [whole]. split; [exact Hrb|]. split; [lia|]. split; [reflexivity|]. split; [pose proof (pow_pos (m + 0)); lia|]. auto.
    - rewrite E1. cbn [bind]. destruct r as [r|].
      + destruct Hr as (d' & dr & nr & -> & Hdr & Hnr & Hnr0 & -> & Hwr).
        destruct (IH dr nr a h Hwr ltac:(lia) Ha Hh) as (r' & D1 & D2 & D3 & D4). rewrite D1. cbn [bind].
        eexists. split; [reflexivity|]. cbn [p_blp p_lp]. pose proof (whole_fields _ _ _ D2) as (G1 & _ & _). rewrite G1.
        set (dr' := if Nat.eqb nr (2 ^ (m + dr)) then S dr else dr) in *.
        assert (Hdr' : (dr' <= d')%nat).
        { unfold dr'. destruct (Nat.eqb_spec nr (2 ^ (m + dr))) as [En'|]; [|exact Hdr].
          assert (dr <> d'); [|lia]. intros ->. apply En. rewrite <- plus_n_Sm. cbn [Nat.pow]. lia. }
        replace (m + S d' - (m + dr') - 1)%nat with (d' - dr')%nat by lia.
        assert (El : lift (d' - dr) (p_blp r) (p_lp r) = lift (d' - dr') (p_blp r) (view dr nr r)).
        { unfold dr', view in *. destruct (Nat.eqb nr (2 ^ (m + dr))); [|reflexivity]. replace (d' - dr)%nat with (S (d' - S dr)) by lia. apply lift_S. }
        pose proof (lift_within L (d' - dr') _ _ _ _ D3 D4) as Hl.
        split; [|split; [lra|rewrite El; apply mix_within; lra]].
        cbn [whole]. split; [exact Hb'|]. split; [reflexivity|]. split; [lia|]. split; [lia|].
        exists d', dr', (S nr). split; [reflexivity|]. split; [exact Hdr'|]. split; [lia|]. split; [lia|]. split; [reflexivity|exact D2].
      + destruct Hr as (-> & ->). eexists. split; [reflexivity|]. cbn [p_blp p_lp].
        split; [|split; lra]. cbn [whole]. split; [exact Hb'|]. split; [reflexivity|]. split; [lia|]. split; [lia|]. auto.
  Qed.

  Definition good (n : nat) (y : ptw (S := S2)) : Prop := exists d, whole d n (pt_tree y) /\ pt_lp y = p_lp (pt_tree y) + pt_adj y.
  Lemma good_new : good 0 (ptw_init m fresh).
  Proof.
    exists 0%nat. cbn [ptw_init pt_tree pt_lp pt_adj new_pnode p_lp whole]. split; [|lra].
    split; [exact H0|]. split; [lia|]. split; [reflexivity|]. split; [lia|]. auto.
  Qed.
  Lemma good_step n y a h : good n y -> (S n <= N)%nat -> In a A -> okh h ->
    exists y' l, m_update (PTW_model M m fresh) y a h 1 = Ok (y', l) /\ - L <= l <= 0 /\ good (S n) y'.
  Proof.
    intros (d & Hw & Hlp) Hn Ha Hh. destruct (whole_step _ d n a h Hw Hn Ha Hh) as (t & E1 & E2 & _ & E3).
    cbn [PTW_model m_update]. unfold ptw_update. rewrite E1. cbn [bind]. eexists _, _. split; [reflexivity|].
    rewrite (whole_complete _ _ _ Hw). unfold view in E3. cbn [pt_tree pt_lp pt_adj]. split.
    - destruct (Nat.eqb n (2 ^ (m + d))); lra.
    - eexists. cbn [pt_tree pt_lp pt_adj]. split; [exact E2|reflexivity].
  Qed.
End exact.

Section rounding.
  Variables (F : floats) (u big : R) (max : nat).
  Hypothesis HF : accurate F u big max.
  Hypothesis Hu : 0 <= u <= / 64.
  Context {S1 S2 : Type} (M1 : model S1) (M2 : model S2) (f1 : S1) (f2 : S2) (A : list Z) (okh : list Z -> Prop)
    (N : nat) (eps L : R) (close : nat -> S1 -> S2 -> Prop).
  Hypothesis HT : steady M1 M2 f1 f2 A okh N eps L close.
  Variable m : nat.
  Hypothesis HN : (0 < N)%nat.
  Hypothesis HL : 0 <= L.
  Hypothesis Heps : 0 <= eps.
  Let B := ptw_size N L 0.
  Hypothesis Hbig : 2 * B + 6 <= big.
  Hypothesis Hsmall : 25 * (INR N * ptw_loss u N L 0 eps) <= 1.

  Definition tclose (n : nat) (x : S1) (y : S2) (b : R) : Prop := close n x y /\ - (INR n * L) <= b <= 0.
  Definition has (n : nat) (y : S2) : Prop := exists x, close n x y.
  Definition psame (n : nat) (x : ptw (S := S1)) (y : ptw (S := S2)) : Prop :=
    ptnear u eps L 0 tclose m B n x y /\ good has m n y.

  Lemma has_step n y a h : has n y -> (S n <= N)%nat -> In a A -> okh h ->
    exists y' l, m_update M2 y a h 1 = Ok (y', l) /\ - L <= l <= 0 /\ has (S n) y'.
  Proof.
    intros [x Hc] Hn Ha Hh. destruct (sd_step _ _ _ _ _ _ _ _ _ _ HT n x y a h Hc Hn Ha Hh) as (x' & y' & lx & ly & U1 & U2 & U3 & U4 & U5).
    exists y', ly. split; [exact U2|]. split; [exact U4|]. exists x'. exact U5.
  Qed.

  Lemma ptw_steady : steady (FPTW_model F M1 m f1) (PTW_model M2 m f2) (ptw_init m f1) (ptw_init m f2) A okh N
    (45 * (INR N * ptw_loss u N L 0 eps)) L psame.
  Proof.
    pose proof (steady_tracks M1 M2 f1 f2 A okh N eps L close HT HL) as T. fold tclose in T.
    assert (HB : 4 * INR N * (L + 0 + 2) + 8 <= B) by (unfold B, ptw_size; lra).
    assert (Hs : 25 * (INR N * nu u eps B) <= 1) by exact Hsmall.
    assert (H0 : has 0 f2) by (exists f1; exact (sd_new _ _ _ _ _ _ _ _ _ _ HT)).
    split.
    - split; [|eapply good_new; eauto using has_step].
      exact (ptnear_new u Hu M1 M2 f1 f2 _ N eps L 0 tclose T m B HN HL (Rle_refl 0) Heps HB).
    - intros n x y a h [Hp Hg] Hn Ha Hh.
      destruct (ptnear_step F u big max HF Hu M1 M2 f1 f2 _ N eps L 0 tclose T m B HN HL (Rle_refl 0) Heps HB Hbig Hs n x y a h Hp Hn (conj Ha Hh)) as (x' & y' & U1 & U2 & Hp').
      destruct (good_step M2 f2 A okh N L has m HN H0 has_step n y a h Hg Hn Ha Hh) as (y2 & l2 & V1 & V2 & Hg'). rewrite U2 in V1. injection V1 as <- <-.
      exists x', y', (f_sub F (pt_lp x') (pt_lp x)), (pt_lp y' - pt_lp y). split; [exact U1|]. split; [exact U2|].
      split; [|split; [exact V2|split; assumption]].
      pose proof (pt_diff F u big max HF Hu N eps L 0 tclose m B HN HL (Rle_refl 0) Heps HB Hbig Hs n x y x' y' Hp Hp' Hn) as Hd.
      destruct Hp as (d & _ & _ & _ & _ & H5 & _). destruct Hp' as (d2 & _ & _ & _ & _ & G5 & _).
      change (nu u eps B) with (ptw_loss u N L 0 eps) in *.
      assert (Bp : 16 <= B) by (pose proof (le_INR 1 N ltac:(lia)) as I1; cbn [INR] in I1; unfold B, ptw_size; nra).
      assert (Q : u * (2 * B + 3) <= ptw_loss u N L 0 eps).
      { unfold ptw_loss. fold B. assert (u * (2 * B + 3) <= u * (3 * B + 20)) by (apply Rmult_le_compat_l; lra). lra. }
      assert (Q0 : 0 <= u * (2 * B + 3)) by (apply Rmult_le_pos; lra).
      set (q := ptw_loss u N L 0 eps) in *.
      assert (I1 : INR (S n) * q <= INR N * q) by (apply Rmult_le_compat_r; [lra|apply le_INR; exact Hn]).
      assert (I2 : INR n * q <= INR N * q) by (apply Rmult_le_compat_r; [lra|apply le_INR; lia]).
      assert (I3 : 1 * q <= INR N * q) by (apply Rmult_le_compat_r; [lra|apply (le_INR 1); lia]).
      apply abs_le in H5, G5, Hd. apply Rabs_le. lra.
  Qed.
End rounding.
