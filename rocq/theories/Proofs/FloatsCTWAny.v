(** CTW over any base model, computed with rounding, follows the exact CTW. *)
From Coq Require Import Lra Lia.
From Verif Require Import Spec.FloatsAnySpec.
From Verif Require Import Proofs.RealFacts Proofs.PyFacts Proofs.ProbFacts Proofs.KTRedundancy Proofs.CTWFacts Proofs.CTWTop Proofs.CTWProps Proofs.SeqFacts Proofs.FloatsFacts.
Open Scope R_scope.

Lemma exact_ctw {S} (M : model S) fresh binary : FCTW_model exact M fresh binary = CTW_model M fresh binary.
Proof. reflexivity. Qed.

Definition lps {S} (ch : list (Z * cnode S)) : R := Rsum (map (fun kv => c_lp (snd kv)) ch).

(** children with the same keys, updated [n] times in all *)
Inductive kids {X Y} (P : nat -> X -> Y -> Prop) : list (Z * X) -> list (Z * Y) -> nat -> Prop :=
| kids_nil : kids P [] [] 0
| kids_cons k i x y chx chy n : P i x y -> kids P chx chy n -> kids P ((k, x) :: chx) ((k, y) :: chy) (i + n).

Section step.
  Context {S1 S2 : Type}.
  Variable P : nat -> cnode S1 -> cnode S2 -> Prop.
  (** the child that is updated: it exists in both or in none *)
  Lemma kids_set k chx chy n f1 f2 : kids P chx chy n -> P 0%nat f1 f2 -> c_lp f1 = 0 -> c_lp f2 = 0 ->
    exists i, (i <= n)%nat /\
      let cx := match dict_get chx k with Some x => x | None => f1 end in
      let cy := match dict_get chy k with Some y => y | None => f2 end in
      P i cx cy /\
      forall cx' cy', P (S i) cx' cy' -> kids P (dict_set chx k cx') (dict_set chy k cy') (S n) /\
        lps (dict_set chx k cx') = lps chx + (c_lp cx' - c_lp cx) /\
        lps (dict_set chy k cy') = lps chy + (c_lp cy' - c_lp cy).
  Proof.
    intros H H0 E1 E2. induction H as [|k0 i x y chx chy n Hp H IH].
    - exists 0%nat. split; [lia|]. cbn [dict_get dict_set]. cbv zeta. split; [exact H0|]. intros cx' cy' H'. split; [exact (kids_cons P k 1 cx' cy' [] [] 0 H' (kids_nil P))|].
      unfold lps. cbn [map snd]. rewrite !Rsum_cons, !Rsum_nil. lra.
    - cbn [dict_get dict_set]. destruct (k0 =? k)%Z eqn:E.
      + apply Z.eqb_eq in E. subst k0. exists i. split; [lia|]. cbv zeta. split; [exact Hp|]. intros cx' cy' H'.
        split; [exact (kids_cons P k (S i) cx' cy' chx chy n H' H)|]. unfold lps. cbn [map snd]. rewrite !Rsum_cons. lra.
      + destruct IH as (j & Hj & Hc & IH). exists j. split; [lia|]. cbv zeta in *. split; [exact Hc|]. intros cx' cy' H'.
        destruct (IH cx' cy' H') as (I1 & I2 & I3).
        split; [replace (S (i + n)) with (i + S n)%nat by lia; exact (kids_cons P k0 i x y _ _ _ Hp I1)|].
        unfold lps in *. cbn [map snd]. rewrite !Rsum_cons. lra.
  Qed.
  Lemma kids_sum e l chx chy n : 0 <= e -> 0 <= l -> kids P chx chy n ->
    (forall i x y, P i x y -> Rabs (c_lp x - c_lp y) <= INR i * e /\ - (INR i * l) <= c_lp y <= 0) ->
    Rabs (lps chx - lps chy) <= INR n * e /\ - (INR n * l) <= lps chy <= 0.
  Proof.
    intros He Hl H HP. induction H as [|k i x y chx chy n Hp H IH].
    - unfold lps. cbn [map INR]. rewrite Rsum_nil, Rminus_0_r, Rabs_R0. lra.
    - destruct (HP i x y Hp) as [H1 H2]. destruct IH as [I1 I2]. unfold lps in *. cbn [map snd]. rewrite !Rsum_cons, plus_INR.
      apply abs_le in H1, I1. split; [apply Rabs_le; lra|lra].
  Qed.
End step.

Section ctw.
  Context (F : floats) (u big : R) (max : nat).
  Hypothesis HF : accurate F u big max.
  Hypothesis Hu : 0 <= u <= / 64.
  Context {S1 S2 : Type} (M1 : model S1) (M2 : model S2) (f1 : S1) (f2 : S2) (A : list Z) (okh : list Z -> Prop)
    (N : nat) (eps L : R) (bclose : nat -> S1 -> S2 -> Prop).
  Hypothesis HT : steady M1 M2 f1 f2 A okh N eps L bclose.
  Hypothesis HN : (0 < N)%nat.
  Hypothesis HL : 0 <= L.
  Hypothesis Heps : 0 <= eps.
  Variables (binary : bool) (K : list Z) (D : nat).
  Hypothesis HK : In 0%Z K.
  Hypothesis HB : binary = true -> incl K [0; 1]%Z.
  Hypothesis HD : (0 < D)%nat.
  Hypothesis Hbig : ctw_room N L <= big.
  Hypothesis Hsmall : INR N * ctw_drift u N D L eps <= 1.
  Let B := INR N * L + 2.
  Let G := ctw_room N L.
  Let Kd d := ctw_drift u N d L eps.

  Lemma B_pos : 2 <= B /\ G = 4 * B + 22.
  Proof. unfold B, G, ctw_room. pose proof (pos_INR N). nra. Qed.
  Lemma Kd_S d : Kd (S d) = Kd d + u * G.
  Proof. unfold Kd, ctw_drift. rewrite (S_INR (S d)). fold G. ring. Qed.
  Lemma uG : 0 <= u * G.
  Proof. pose proof B_pos. apply Rmult_le_pos; lra. Qed.
  Lemma Kd_low d : eps + u * G <= Kd d.
  Proof. unfold Kd, ctw_drift. fold G. pose proof uG. rewrite S_INR. pose proof (pos_INR d). nra. Qed.
  Lemma Kd_mono d : (d <= D)%nat -> Kd d <= Kd D.
  Proof. intros H. unfold Kd, ctw_drift. fold G. pose proof uG. apply le_n_S, le_INR in H. nra. Qed.
  Lemma small n d : (n <= N)%nat -> (d <= D)%nat -> 0 <= INR n * Kd d <= 1.
  Proof.
    intros Hn Hd. pose proof (Kd_low d). pose proof uG. pose proof (Kd_mono d Hd). apply le_INR in Hn. pose proof (pos_INR n).
    split; [apply Rmult_le_pos; lra|]. eapply Rle_trans; [|exact Hsmall]. fold (Kd D). apply Rmult_le_compat; lra.
  Qed.

  Fixpoint near (d n : nat) (x : cnode S1) (y : cnode S2) : Prop :=
    let '(CNode bx px cx lx chx) := x in
    let '(CNode by' py cy ly chy) := y in
    bclose n bx by' /\ Rabs (px - py) <= INR n * (eps + u * B) /\ - (INR n * L) <= py <= 0 /\
    match d with
    | O => lx = px /\ ly = py
    | S d' => kids (near d') chx chy n /\ cy = lps chy /\ Rabs (cx - lps chx) <= INR n * (u * (2 * B + 6)) /\
        ly = log_0_5 + logsumexp2 py cy /\ - (INR n * L) <= ly <= 0 /\ Rabs (lx - ly) <= INR n * Kd d
    end.

  Lemma near_lp d n x y : near d n x y -> Rabs (c_lp x - c_lp y) <= INR n * Kd d /\ - (INR n * L) <= c_lp y <= 0.
  Proof.
    destruct x as [bx px cx lx chx], y as [by' py cy ly chy], d as [|d]; cbn [near c_lp]; intros (_ & H1 & H2 & H).
    - destruct H as [-> ->]. split; [|exact H2]. eapply Rle_trans; [exact H1|]. apply Rmult_le_compat_l; [apply pos_INR|].
      pose proof (Kd_low 0). pose proof B_pos as [b1 b2]. pose proof uG as g. rewrite b2 in *. lra.
    - tauto.
  Qed.

  Lemma mix_same : log_0_5 + logsumexp2 0 0 = 0.
  Proof. apply exp_inj. rewrite mix_exp, exp_0. lra. Qed.
  Lemma near_new d : near d 0 (new_node f1) (new_node f2).
  Proof.
    pose proof (sd_new _ _ _ _ _ _ _ _ _ _ HT). destruct d; cbn [near new_node INR]; rewrite ?Rminus_0_r, ?Rabs_R0, ?Rmult_0_l.
    - repeat split; auto; lra.
    - split; [assumption|]. split; [lra|]. split; [lra|]. split; [constructor|]. unfold lps; cbn [map]. rewrite Rsum_nil, ?Rminus_0_r, mix_same, ?Rminus_0_r, ?Rabs_R0.
      repeat split; lra.
  Qed.

  Lemma mix_move a b a' b' : - L <= a' - a <= 0 -> - L <= b' - b <= 0 ->
    - L <= (log_0_5 + logsumexp2 a' b') - (log_0_5 + logsumexp2 a b) <= 0.
  Proof.
    intros Ha Hb. pose proof (lse2_mono a b a' b' L ltac:(lra) ltac:(lra)). pose proof (lse2_mono a' b' a b 0 ltac:(lra) ltac:(lra)). lra.
  Qed.
  (** the mixture of a base model and the children *)
  Lemma mix_err d n px py cx cy : (S n <= N)%nat -> (S d <= D)%nat ->
    - (INR (S n) * L) <= py <= 0 -> - (INR (S n) * L) <= cy <= 0 ->
    Rabs (px - py) <= INR (S n) * (eps + u * B) -> Rabs (cx - cy) <= INR (S n) * (Kd d + u * (2 * B + 6)) ->
    Rabs (f_add F (fp_log_0_5 F) (fp_logsumexp2 F px cx) - (log_0_5 + logsumexp2 py cy)) <= INR (S n) * Kd (S d).
  Proof.
    intros Hn Hd Hb Hc Eb Ec. pose proof (small (S n) (S d) Hn Hd) as Sm. rewrite Kd_S in *.
    pose proof B_pos as [b1 b2]. pose proof uG as g. pose proof (Kd_low d) as kl.
    set (m := INR (S n)) in *. assert (Hm : 1 <= m <= INR N) by (split; [apply (le_INR 1); lia|apply le_INR; exact Hn]).
    assert (HmL : m * L <= B - 2) by (unfold B; nra).
    assert (Mu : u <= m * u) by nra.
    set (e := m * (Kd d + u * (2 * B + 6))) in *.
    assert (He : e + (m * u) * (2 * B + 16) = m * (Kd d + u * G)) by (unfold e; rewrite b2; ring).
    assert (Hmu : u * (2 * B + 16) <= (m * u) * (2 * B + 16)) by (apply Rmult_le_compat_r; lra).
    assert (He0 : 0 <= u * (2 * B + 16)) by (apply Rmult_le_pos; lra).
    assert (He1 : e <= 1) by lra.
    assert (Eb2 : Rabs (px - py) <= e).
    { eapply Rle_trans; [exact Eb|]. apply Rmult_le_compat_l; [lra|]. rewrite b2 in kl. nra. }
    pose proof (lse2_lip _ _ _ _ _ Eb2 Ec) as Hlip. apply abs_le in Eb2, Ec, Hlip.
    assert (Hbg : 4 * B + 22 <= big) by (rewrite <- b2; exact Hbig).
    assert (Hlse : Rabs (fp_logsumexp2 F px cx - logsumexp2 px cx) <= u * (B + 11)).
    { apply (lse2_err F u big max HF Hu); [apply Rabs_le; lra|apply Rabs_le; lra|lra]. }
    assert (Hh : Rabs (fp_log_0_5 F - log_0_5) <= u * 2).
    { unfold fp_log_0_5, log_0_5. eapply Rle_trans; [apply (acc_log _ _ _ _ HF); lra|]. apply Rmult_le_compat_l; [lra|].
      rewrite ln_Rinv by lra. rewrite Rabs_Ropp. pose proof ln2_bounds. rewrite Rabs_right; lra. }
    apply abs_le in Hlse, Hh.
    assert (Hmix : - (m * L) <= log_0_5 + logsumexp2 py cy <= 0).
    { pose proof (mix_same) as Z0.
      pose proof (lse2_mono py cy 0 0 0 ltac:(lra) ltac:(lra)). pose proof (lse2_mono 0 0 py cy (m * L) ltac:(lra) ltac:(lra)). lra. }
    assert (Hu1 : u * (2 * B + 16) <= 1) by lra.
    assert (Hu2 : u * (B + 11) <= 1) by (assert (u * (B + 11) <= u * (2 * B + 16)) by (apply Rmult_le_compat_l; lra); lra).
    assert (Ha : Rabs (f_add F (fp_log_0_5 F) (fp_logsumexp2 F px cx) - (fp_log_0_5 F + fp_logsumexp2 F px cx)) <= u * (B + 3)).
    { apply (add_err F u big max HF Hu); [apply Rabs_le; lra|lra]. }
    apply abs_le in Ha. apply Rabs_le. rewrite <- He. lra.
  Qed.

  Lemma lp_size d n x y : near d n x y -> (n <= N)%nat -> (d <= D)%nat -> - B <= c_lp x <= 1.
  Proof.
    intros H Hn Hd. apply near_lp in H as [H1 H2]. pose proof (small n d Hn Hd). apply abs_le in H1.
    apply le_INR in Hn. assert (INR n * L <= INR N * L) by (apply Rmult_le_compat_r; lra). unfold B. lra.
  Qed.
  Lemma diff_err d n x y x' y' : near d n x y -> near d (S n) x' y' -> (S n <= N)%nat -> (d <= D)%nat ->
    Rabs (f_sub F (c_lp x') (c_lp x) - (c_lp x' - c_lp x)) <= u * (B + 1).
  Proof.
    intros H H' Hn Hd. pose proof (lp_size d n x y H ltac:(lia) Hd). pose proof (lp_size d (S n) x' y' H' Hn Hd).
    pose proof B_pos as [b1 b2]. unfold G in b2. apply (sub_err F u big max HF Hu); [apply Rabs_le; lra|lra].
  Qed.

  Lemma base_step n bx by' px py a h : bclose n bx by' -> Rabs (px - py) <= INR n * (eps + u * B) -> - (INR n * L) <= py <= 0 ->
    (S n <= N)%nat -> In a A -> okh h ->
    exists bx' by2 lx ly, m_update M1 bx a h 1 = Ok (bx', lx) /\ m_update M2 by' a h 1 = Ok (by2, ly) /\ bclose (S n) bx' by2 /\
      Rabs (f_add F px lx - (py + ly)) <= INR (S n) * (eps + u * B) /\ - (INR (S n) * L) <= py + ly <= 0 /\ - L <= ly <= 0.
  Proof.
    intros Hb Hp Hr Hn Ha Hh. destruct (sd_step _ _ _ _ _ _ _ _ _ _ HT n bx by' a h Hb Hn Ha Hh) as (bx' & by2 & lx & ly & U1 & U2 & U3 & U4 & U5).
    exists bx', by2, lx, ly. split; [exact U1|]. split; [exact U2|]. split; [exact U5|]. rewrite S_INR.
    pose proof B_pos as [b1 b2]. unfold G in b2. pose proof (pos_INR n).
    pose proof (small (S n) 0 Hn ltac:(lia)) as Sm. pose proof (Kd_low 0) as kl. pose proof uG as g. rewrite S_INR in Sm.
    apply le_INR in Hn. rewrite S_INR in Hn.
    assert (HmL : (INR n + 1) * L <= B - 2) by (unfold B; nra).
    assert (E1 : (INR n + 1) * (eps + u * B) <= 1).
    { eapply Rle_trans; [|apply Sm]. apply Rmult_le_compat_l; [lra|]. fold G in b2. rewrite b2 in kl. nra. }
    assert (Eu : 0 <= u * B) by (apply Rmult_le_pos; lra).
    apply abs_le in Hp, U3.
    assert (Ha1 : Rabs (f_add F px lx - (px + lx)) <= u * B).
    { apply (add_err F u big max HF Hu); [apply Rabs_le; lra|lra]. }
    apply abs_le in Ha1. split; [apply Rabs_le; lra|]. split; lra.
  Qed.

  Lemma near_step a h : In a A -> okh h -> forall ctx n x y, (length ctx <= D)%nat -> (S n <= N)%nat -> incl ctx K ->
    near (length ctx) n x y ->
    exists x' y' mx my, fnode_update F M1 f1 binary ctx x a h 1 = Ok (x', f_sub F (c_lp x') (c_lp x), mx) /\
      node_update M2 f2 binary ctx y a h 1 = Ok (y', c_lp y' - c_lp y, my) /\ near (length ctx) (S n) x' y' /\
      - L <= c_lp y' - c_lp y <= 0.
  Proof.
    intros Ha Hh. induction ctx as [|c ctx IH]; intros n [bx px cx lx chx] [by' py cy ly chy] Hd Hn Hctx;
      cbn [near length fnode_update node_update c_lp]; intros (Hb & Hp & Hr & H);
      destruct (base_step n bx by' px py a h Hb Hp Hr Hn Ha Hh) as (bx' & by2 & l1 & l2 & U1 & U2 & U3 & U4 & U5 & U6);
      rewrite U1, U2; cbn [bind].
    - eexists (CNode _ _ _ _ _), (CNode _ _ _ _ _), _, _. cbn [c_lp]. split; [reflexivity|]. split; [reflexivity|]. cbn [near]. destruct H as [_ ->].
      repeat split; auto; lra.
    - rewrite (child_key_ok binary K c HB (Hctx c (or_introl eq_refl))). cbn [bind]. cbn [length] in Hd.
      destruct H as (Hkids & -> & Hcx & -> & Hly & Hlx).
      destruct (kids_set (near (length ctx)) c chx chy n (new_node f1) (new_node f2) Hkids (near_new _) eq_refl eq_refl) as (i & Hi & Hchild & Hset).
      cbv zeta in Hchild, Hset.
      destruct (IH i _ _ ltac:(lia) ltac:(lia) (fun z Hz => Hctx z (or_intror Hz)) Hchild) as (xi' & yi' & mx & my & Ux & Uy & Ni' & Hmv).
      assert (Ex : exists m, (match dict_get chx c with Some x => (x, 0%nat) | None => (new_node f1, 1%nat) end) =
        (match dict_get chx c with Some x => x | None => new_node f1 end, m)) by (destruct (dict_get chx c); eauto).
      assert (Ey : exists m, (match dict_get chy c with Some x => (x, 0%nat) | None => (new_node f2, 1%nat) end) =
        (match dict_get chy c with Some x => x | None => new_node f2 end, m)) by (destruct (dict_get chy c); eauto).
      destruct Ex as [m1 ->], Ey as [m2 ->].
      set (xi := match dict_get chx c with Some x => x | None => new_node f1 end) in *.
      set (yi := match dict_get chy c with Some x => x | None => new_node f2 end) in *.
      rewrite Ux, Uy. cbn [bind].
      destruct (Hset xi' yi' Ni') as (Hkids' & Sx & Sy).
      pose proof (diff_err _ _ _ _ _ _ Hchild Ni' ltac:(lia) ltac:(lia)) as Hdiff.
      set (r := f_sub F (c_lp xi') (c_lp xi)) in *.
      eexists (CNode _ _ _ _ _), (CNode _ _ _ _ _), _, _. cbn [c_lp]. split; [reflexivity|]. split; [reflexivity|].
      assert (HKd : 0 <= Kd (length ctx)) by (pose proof (Kd_low (length ctx)); pose proof uG; lra).
      pose proof (kids_sum (near (length ctx)) (Kd (length ctx)) L _ _ _ HKd HL Hkids (near_lp _)) as [Q1 Q2].
      pose proof (kids_sum (near (length ctx)) (Kd (length ctx)) L _ _ _ HKd HL Hkids' (near_lp _)) as [Q3 Q4].
      replace (lps chy + (c_lp yi' - c_lp yi)) with (lps (dict_set chy c yi')) by lra.
      (* the sum of the children *)
      pose proof B_pos as [b1 b2]. unfold G in b2. pose proof uG as g. unfold G in g. rewrite b2 in g.
      pose proof (small (S n) (length ctx) Hn ltac:(lia)) as Sm. pose proof (Kd_low (length ctx)) as kl. unfold G in kl. rewrite b2 in kl.
      assert (HmL : INR (S n) * L <= B - 2) by (apply le_INR in Hn; unfold B; nra).
      assert (HnS : INR n <= INR (S n)) by (rewrite S_INR; lra). pose proof (pos_INR n) as Pn.
      assert (Hn1 : 1 <= INR (S n)) by (rewrite S_INR; lra).
      assert (HnL : INR n * L <= B - 2) by (assert (INR n * L <= INR (S n) * L) by (apply Rmult_le_compat_r; lra); lra).
      assert (Hnk : INR n * Kd (length ctx) <= 1) by (pose proof (small n (length ctx) ltac:(lia) ltac:(lia)); lra).
      assert (Hcu : INR n * (u * (2 * B + 6)) <= 1).
      { eapply Rle_trans; [|exact Hnk]. apply Rmult_le_compat_l; [lra|]. nra. }
      assert (Hub : u * (B + 1) <= 1).
      { assert (u * (4 * B + 22) <= 1) by (assert (u * (4 * B + 22) <= INR (S n) * Kd (length ctx)) by nra; lra). nra. }
      apply abs_le in Hcx, Hdiff, Q1, Q3.
      assert (Hcr : - B - 4 <= cx + r <= 4) by lra.
      assert (Hadd : Rabs (f_add F cx r - (cx + r)) <= u * (B + 4)).
      { apply (add_err F u big max HF Hu); [apply Rabs_le; lra|lra]. }
      apply abs_le in Hadd.
      assert (Hcx' : Rabs (f_add F cx r - lps (dict_set chx c xi')) <= INR (S n) * (u * (2 * B + 6))).
      { rewrite S_INR. apply Rabs_le. lra. }
      assert (Hmix : Rabs (f_add F (fp_log_0_5 F) (fp_logsumexp2 F (f_add F px l1) (f_add F cx r)) -
        (log_0_5 + logsumexp2 (py + l2) (lps (dict_set chy c yi')))) <= INR (S n) * Kd (S (length ctx))).
      { apply mix_err; [exact Hn|exact Hd|exact U5|exact Q4|exact U4|].
        apply abs_le in Hcx'. apply Rabs_le. rewrite Rmult_plus_distr_l. lra. }
      pose proof (mix_move py (lps chy) (py + l2) (lps (dict_set chy c yi')) ltac:(lra) ltac:(lra)) as Hmm.
      cbn [near]. split; [|exact Hmm].
      split; [exact U3|]. split; [exact U4|]. split; [exact U5|]. split; [exact Hkids'|]. split; [reflexivity|]. split; [exact Hcx'|].
      split; [reflexivity|]. split; [|exact Hmix]. rewrite S_INR. lra.
  Qed.

  Definition near_c (n : nat) (x : ctw (S := S1)) (y : ctw (S := S2)) : Prop :=
    ctw_depth x = Z.of_nat D /\ ctw_depth y = Z.of_nat D /\ near D n (ctw_tree x) (ctw_tree y).

  Lemma model_step n x y a h : near_c n x y -> (S n <= N)%nat -> In a A -> okctx okh K h ->
    exists x' y', m_update (FCTW_model F M1 f1 binary) x a h 1 = Ok (x', f_sub F (c_lp (ctw_tree x')) (c_lp (ctw_tree x))) /\
      m_update (CTW_model M2 f2 binary) y a h 1 = Ok (y', c_lp (ctw_tree y') - c_lp (ctw_tree y)) /\ near_c (S n) x' y' /\
      - L <= c_lp (ctw_tree y') - c_lp (ctw_tree y) <= 0.
  Proof.
    intros (Dx & Dy & H) Hn Ha [Hh Hi]. set (c := rev (mkcontext (Z.of_nat D) h)).
    assert (Hl : length c = D) by (unfold c; rewrite mkcontext_recent by exact HD; apply recent_length).
    assert (Hc : incl c K) by (unfold c; rewrite mkcontext_recent by exact HD; apply recent_incl; assumption).
    rewrite <- Hl in H at 1. destruct (near_step a h Ha Hh c n _ _ ltac:(lia) Hn Hc H) as (x' & y' & mx & my & Ux & Uy & H' & Hm).
    exists (CTW (Z.of_nat D) x' (ctw_size x + mx)), (CTW (Z.of_nat D) y' (ctw_size y + my)).
    cbn [FCTW_model CTW_model m_update]. unfold fctw_update, ctw_update, ctw_update_with.
    rewrite Dx, Dy. fold c. rewrite Ux, Uy. cbn [bind ctw_tree]. rewrite Hl in H'. unfold near_c. cbn [ctw_depth ctw_tree]. split; [reflexivity|]. split; [reflexivity|]. split; [auto|exact Hm].
  Qed.

  Lemma step_err n x y x' y' : near_c n x y -> near_c (S n) x' y' -> (S n <= N)%nat ->
    Rabs (f_sub F (c_lp (ctw_tree x')) (c_lp (ctw_tree x)) - (c_lp (ctw_tree y') - c_lp (ctw_tree y))) <= ctw_off u N D L eps.
  Proof.
    intros (_ & _ & H) (_ & _ & H') Hn. pose proof (diff_err D n _ _ _ _ H H' Hn (le_n _)) as Hd.
    apply near_lp in H as [H _], H' as [H' _]. apply abs_le in H, H', Hd. unfold ctw_off. fold (Kd (S D)). rewrite Kd_S.
    pose proof (Kd_low D) as kl. pose proof uG as g. pose proof B_pos as [b1 b2]. rewrite b2 in *. pose proof (pos_INR n).
    apply le_INR in Hn. rewrite S_INR in *.
    assert (I1 : INR n * Kd D <= INR N * Kd D) by (apply Rmult_le_compat_r; lra).
    assert (I2 : (INR n + 1) * Kd D <= INR N * Kd D) by (apply Rmult_le_compat_r; lra).
    assert (I3 : u * (B + 1) <= INR N * (u * (4 * B + 22))) by nra.
    apply Rabs_le. lra.
  Qed.

  Lemma near_init : near_c 0 (ctw_init f1 (Z.of_nat D)) (ctw_init f2 (Z.of_nat D)).
  Proof. split; [reflexivity|]. split; [reflexivity|]. apply near_new. Qed.

  Lemma ctw_steady : steady (FCTW_model F M1 f1 binary) (CTW_model M2 f2 binary) (ctw_init f1 (Z.of_nat D)) (ctw_init f2 (Z.of_nat D)) A (okctx okh K) N
    (ctw_off u N D L eps) L near_c.
  Proof.
    split; [exact near_init|]. intros n x y a h H Hn Ha Hh.
    destruct (model_step n x y a h H Hn Ha Hh) as (x' & y' & Ux & Uy & H' & Hm).
    eexists _, _, _, _. split; [exact Ux|]. split; [exact Uy|]. split; [exact (step_err n x y x' y' H H' Hn)|]. split; [exact Hm|exact H'].
  Qed.

  (** the sum of the values returned *)
  Lemma seq_near : forall seq n x y h rx, near_c n x y -> (n + length seq <= N)%nat -> Forall (ok_event A (okctx okh K) (eq 1)) (events_from h seq 1) ->
    Rabs (rx - c_lp (ctw_tree x)) <= INR n * (u * (2 * B + 6)) ->
    exists x' y' rx', fp_update_seq_loop F (FCTW_model F M1 f1 binary) x seq h 1 rx = Ok (x', h ++ seq, rx') /\
      update_seq_loop (CTW_model M2 f2 binary) y seq h 1 (c_lp (ctw_tree y)) = Ok (y', h ++ seq, c_lp (ctw_tree y')) /\
      near_c (n + length seq) x' y' /\
      Rabs (rx' - c_lp (ctw_tree x')) <= INR (n + length seq) * (u * (2 * B + 6)).
  Proof.
    induction seq as [|a seq IH]; intros n x y h rx H Hn Hev Hr; cbn [length fp_update_seq_loop update_seq_loop events_from] in *.
    - exists x, y, rx. rewrite app_nil_r, Nat.add_0_r. auto.
    - inversion Hev as [|? ? [Ha [Hh _]] Hev']; subst. cbn [ev_sym ev_hist] in *.
      destruct (model_step n x y a h H ltac:(lia) Ha Hh) as (x1 & y1 & Ux & Uy & H1 & _).
      rewrite Ux, Uy. cbn [bind].
      assert (Hr1 : Rabs (f_add F rx (f_sub F (c_lp (ctw_tree x1)) (c_lp (ctw_tree x))) - c_lp (ctw_tree x1)) <= INR (S n) * (u * (2 * B + 6))).
      { destruct H as (_ & _ & H), H1 as (_ & _ & H1).
        pose proof (diff_err D n _ _ _ _ H H1 ltac:(lia) ltac:(lia)) as Hd.
        pose proof (lp_size D (S n) _ _ H1 ltac:(lia) ltac:(lia)) as Hz.
        pose proof B_pos as [b1 b2]. unfold G in b2. pose proof uG as g. unfold G in g. rewrite b2 in g.
        pose proof (Kd_low 0) as kl. unfold G in kl. rewrite b2 in kl.
        pose proof (small (S n) 0 ltac:(lia) ltac:(lia)) as Sm. rewrite S_INR in *. pose proof (pos_INR n).
        assert (Hr0 : (INR n + 1) * (u * (2 * B + 6)) <= 1).
        { eapply Rle_trans; [|apply Sm]. apply Rmult_le_compat_l; [lra|]. nra. }
        assert (HuB : 0 <= u * (2 * B + 6)) by (apply Rmult_le_pos; lra).
        assert (HuB1 : 0 <= u * (B + 1) <= u * (2 * B + 6)) by (split; [apply Rmult_le_pos; lra|apply Rmult_le_compat_l; lra]).
        apply abs_le in Hr, Hd. set (r := f_sub F _ _) in *.
        assert (Hnu : 0 <= INR n * (u * (2 * B + 6))) by (apply Rmult_le_pos; lra).
        assert (Ha2 : Rabs (f_add F rx r - (rx + r)) <= u * (B + 3)) by (apply (add_err F u big max HF Hu); [apply Rabs_le; lra|lra]).
        apply abs_le in Ha2. apply Rabs_le. lra. }
      replace (c_lp (ctw_tree y) + (c_lp (ctw_tree y1) - c_lp (ctw_tree y))) with (c_lp (ctw_tree y1)) by ring.
      destruct (IH (S n) x1 y1 (h ++ [a]) _ H1 ltac:(lia) Hev' Hr1) as (x' & y' & rx' & E1 & E2 & E3 & E4).
      exists x', y', rx'. rewrite <- app_assoc in E1, E2. cbn [app] in E1, E2. replace (n + S (length seq))%nat with (S n + length seq)%nat by lia.
      auto.
  Qed.

  Lemma total seq h : length seq = N -> Forall (ok_event A (okctx okh K) (eq 1)) (events_from h seq 1) ->
    exists x y r r', fp_update_seq F (FCTW_model F M1 f1 binary) (ctw_init f1 (Z.of_nat D)) seq h 1 = Ok (x, h, r') /\
      update_seq (CTW_model M2 f2 binary) (ctw_init f2 (Z.of_nat D)) seq h 1 = Ok (y, h, r) /\
      Rabs (r' - r) <= INR N * ctw_drift u N (S D) L eps.
  Proof.
    intros Hl Hev. destruct (seq_near seq 0 _ _ h 0 near_init ltac:(lia) Hev) as (x & y & r' & E1 & E2 & E3 & E4).
    { cbn. rewrite Rminus_0_r, Rabs_R0. lra. }
    cbn [Nat.add] in E3, E4. rewrite Hl in E3, E4.
    exists x, y, (c_lp (ctw_tree y)), r'. unfold fp_update_seq, update_seq. cbn [ctw_init ctw_tree new_node c_lp] in E2.
    rewrite E1, E2. cbn [bind]. rewrite !clear_suffix by (intros ->; cbn in Hl; lia). split; [reflexivity|]. split; [reflexivity|].
    destruct E3 as (_ & _ & E3). apply near_lp in E3 as [E3 _]. apply abs_le in E3, E4. fold (Kd (S D)). rewrite Kd_S.
    pose proof B_pos as [b1 b2]. rewrite b2. assert (u * (2 * B + 6) <= u * (4 * B + 22)) by (apply Rmult_le_compat_l; lra).
    assert (INR N * (u * (2 * B + 6)) <= INR N * (u * (4 * B + 22))) by (apply Rmult_le_compat_l; [apply pos_INR|lra]).
    apply Rabs_le. lra.
  Qed.
End ctw.
