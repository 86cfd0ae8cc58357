(** KT over any alphabet, computed with rounding, follows the exact KT. *)
From Coq Require Import Lra Lia.
From Verif Require Import Spec.FloatsAnySpec.
From Verif Require Import Proofs.RealFacts Proofs.PyFacts Proofs.ProbFacts Proofs.KTRedundancy Proofs.KTFacts Proofs.FloatsFacts Proofs.FloatsChop.
Open Scope R_scope.

(** two dictionaries with the same keys *)
Section alike.
  Context {V W : Type}.
  Definition alike (P : V -> W -> Prop) : dict V -> dict W -> Prop := Forall2 (fun p q => fst p = fst q /\ P (snd p) (snd q)).
  Lemma alike_mono (P Q : V -> W -> Prop) d e : (forall v w, P v w -> Q v w) -> alike P d e -> alike Q d e.
  Proof. intros H. induction 1 as [|[k v] [k' w] d e [E Hp] _ IH]; constructor; cbn in *; auto. Qed.
  Lemma alike_get P d e k w : alike P d e -> dict_get e k = Some w -> exists v, dict_get d k = Some v /\ P v w.
  Proof.
    induction 1 as [|[k0 v0] [k1 w0] d e [E Hp] _ IH]; cbn in *; [discriminate|]. subst k1.
    destruct (k0 =? k)%Z; [|exact IH]. intros H; injection H as <-. eauto.
  Qed.
  Lemma alike_set P d e k v w : alike P d e -> P v w -> alike P (dict_set d k v) (dict_set e k w).
  Proof.
    intros H Hp. induction H as [|[k0 v0] [k1 w0] d e [E Hq] H IH]; cbn in *.
    - constructor; [auto|constructor].
    - subst k1. destruct (k0 =? k)%Z; constructor; cbn; auto.
  Qed.
End alike.

Section rel.
  Context (F : floats) (u big : R) (max : nat).
  Hypothesis HF : accurate F u big max.
  Hypothesis Hu : 0 <= u <= / 64.

  Lemma rel_ln x y r : 0 < y -> Rabs (x - y) <= r * y -> 0 <= r <= / 2 -> 0 < x /\ Rabs (ln x - ln y) <= 2 * r.
  Proof.
    intros Hy H Hr. pose proof (abs_le _ _ H) as H1. assert (Hx : y / 2 <= x) by nra. split; [lra|].
    eapply Rle_trans; [apply (ln_lip x y (y / 2)); lra|].
    apply Rle_trans with (r * y / (y / 2)); [unfold Rdiv at 1 2; apply Rmult_le_compat_r; [left; apply Rinv_0_lt_compat; lra|exact H]|].
    right. field. lra.
  Qed.
  Lemma rel_add x y v w r : 0 <= y -> 0 <= w -> 0 <= r <= 1 -> Rabs (x - y) <= r * y -> Rabs (v - w) <= r * w -> 2 * (y + w) <= big ->
    Rabs (f_add F x v - (y + w)) <= (r + 2 * u) * (y + w).
  Proof.
    intros Hy Hw Hr Hx Hv Hb. apply abs_le in Hx, Hv. assert (Hry : 0 <= r * y <= y) by nra. assert (Hrw : 0 <= r * w <= w) by nra.
    assert (Hs : Rabs (x + v) <= 2 * (y + w)) by (apply Rabs_le; lra).
    pose proof (add_err F u big max HF Hu x v (2 * (y + w)) Hs Hb) as H. apply abs_le in H.
    assert (0 <= u * (y + w)) by (apply Rmult_le_pos; lra).
    apply Rabs_le. nra.
  Qed.
  (** the sum of a list *)
  Lemma rel_sum : forall l l' x y r, Forall2 (fun v w => 0 <= w /\ Rabs (v - w) <= u * w) l l' -> 0 <= y -> u <= r ->
    r + 2 * INR (length l) * u <= 1 -> Rabs (x - y) <= r * y -> 2 * (y + Rsum l') <= big ->
    Rabs (fold_left (f_add F) l x - (y + Rsum l')) <= (r + 2 * INR (length l) * u) * (y + Rsum l').
  Proof.
    induction l as [|v l IH]; intros l' x y r H Hy Hr Hr1 Hx Hb; inversion H as [|? w ? l2 [Hw Hv] H2]; subst.
    - cbn [fold_left length INR] in *. rewrite Rsum_nil, Rplus_0_r in *. replace (r + 2 * 0 * u) with r by ring. exact Hx.
    - cbn [fold_left]. rewrite Rsum_cons in *. cbn [length] in *. rewrite S_INR in *.
      assert (Hl2 : 0 <= Rsum l2).
      { clear - H2. induction H2 as [|a b l l2 [Hb _] _ IH]; [rewrite Rsum_nil; lra|rewrite Rsum_cons; lra]. }
      pose proof (pos_INR (length l)) as Pl. assert (0 <= INR (length l) * u) by (apply Rmult_le_pos; lra).
      assert (Hv' : Rabs (v - w) <= r * w) by (eapply Rle_trans; [exact Hv|apply Rmult_le_compat_r; lra]).
      pose proof (rel_add x y v w r Hy Hw ltac:(lra) Hx Hv' ltac:(lra)) as Ha.
      pose proof (IH l2 _ (y + w) (r + 2 * u) H2 ltac:(lra) ltac:(lra) ltac:(lra) Ha ltac:(lra)) as HI.
      replace (y + (w + Rsum l2)) with (y + w + Rsum l2) by ring.
      replace (r + 2 * (INR (length l) + 1) * u) with (r + 2 * u + 2 * INR (length l) * u) by ring. exact HI.
  Qed.
End rel.

Lemma exact_kt : FKT_model exact = KT_model.
Proof. reflexivity. Qed.
Lemma exact_kt_init A : A <> [] -> fkt_init exact A = Ok (kt_init A).
Proof.
  intros Hne. unfold fkt_init, fp_div. destruct (Req_EM_T (INR (length A)) 0) as [E|_]; [|reflexivity].
  apply (INR_eq _ 0) in E. destruct A; [congruence|discriminate].
Qed.

Section kt.
  Context (F : floats) (u big tiny : R) (max : nat).
  Hypothesis HF : accurate F u big max.
  Hypothesis HQ : divides F u tiny.
  Hypothesis Hu : 0 <= u <= / 64.
  Variables (A : list Z) (n : nat).
  Hypothesis HA : NoDup A.
  Hypothesis Hne : A <> [].
  Hypothesis Hn : (0 < n)%nat.
  Let k := length A.
  Hypothesis Hsmall : 32 * (INR n + INR k) * u <= 1.
  Hypothesis Htiny : tiny <= / (2 * INR k * INR n).
  Hypothesis Hbig : 2 * INR n + 4 <= big.
  Let L := kt_worst k n.

  Lemma k_pos : 1 <= INR k.
  Proof. apply (le_INR 1). unfold k. destruct A; [congruence|cbn; lia]. Qed.
  Lemma n_pos : 1 <= INR n.
  Proof. apply (le_INR 1). exact Hn. Qed.
  Lemma L_pos : 0 <= L.
  Proof. unfold L, kt_worst. rewrite <- ln_1. pose proof k_pos. pose proof n_pos. apply ln_le; nra. Qed.
  Lemma off_pos : 0 <= kt_off u k n.
  Proof. unfold kt_off. pose proof L_pos as H. unfold L in H. pose proof k_pos. pose proof n_pos. apply Rmult_le_pos; lra. Qed.

  Definition kt_near (i : nat) (x y : kt) : Prop :=
    kt_inv A y /\ alike (fun c c' => / INR k <= c' /\ Rabs (c - c') <= (2 * INR i + 1) * u * c') (kt_counts x) (kt_counts y) /\
    kt_sum y = 1 + INR i /\ Rabs (kt_sum x - kt_sum y) <= (2 * (INR i + INR k) + 1) * u * kt_sum y.

  Lemma kt_start : exists x, fkt_init F A = Ok x /\ kt_near 0 x (kt_init A).
  Proof.
    pose proof k_pos as Hk. pose proof n_pos as Hn1.
    assert (Hik : 0 < / INR k <= 1).
    { split; [apply Rinv_0_lt_compat; lra|]. rewrite <- Rinv_1. apply Rinv_le_contravar; lra. }
    assert (Hv : Rabs (f_div F 1 (INR k) - / INR k) <= u * / INR k).
    { replace (/ INR k) with (1 / INR k) by (field; lra). apply HQ; [lra|lra|].
      replace (1 / INR k) with (/ INR k) by (field; lra). split; [|lra]. eapply Rle_trans; [exact Htiny|]. apply Rinv_le_contravar; nra. }
    unfold fkt_init, fp_div. fold k. destruct (Req_EM_T (INR k) 0) as [E|_]; [lra|]. cbn [bind].
    set (v := f_div F 1 (INR k)) in *. eexists. split; [reflexivity|].
    pose proof (kt_inv_init A HA Hne) as HI. unfold kt_near. split; [exact HI|].
    unfold kt_init. fold k.
    pose proof (fold_dict_set_app (fun a : Z => a) (fun _ => 1 / INR k) A []) as H1. cbn beta in H1.
    rewrite H1 by (rewrite ?map_id; auto; intros x _ []). clear H1.
    pose proof (fold_dict_set_app (fun a : Z => a) (fun _ => v) A []) as H1. cbn beta in H1.
    rewrite H1 by (rewrite ?map_id; auto; intros x _ []). clear H1. cbn [app kt_counts kt_sum]. unfold dict_values. rewrite !map_map. cbn [snd].
    assert (Hs : Rsum (map (fun _ : Z => 1 / INR k) A) = 1) by (rewrite Rsum_const; fold k; field; lra). rewrite Hs.
    assert (E1 : 1 / INR k = / INR k) by (field; lra). rewrite E1 in *.
    split.
    { unfold alike. generalize A as l. induction l as [|a l IH]; constructor; [|exact IH]. cbn. split; [reflexivity|]. split; [lra|]. rewrite Rmult_0_r, Rplus_0_l, Rmult_1_l. exact Hv. }
    split; [cbn; lra|].
    assert (H2 : Forall2 (fun v w => 0 <= w /\ Rabs (v - w) <= u * w) (map (fun _ : Z => v) A) (map (fun _ : Z => / INR k) A)).
    { generalize A as l. induction l as [|a l IH]; constructor; [|exact IH]. split; [lra|exact Hv]. }
    pose proof n_pos. pose proof (rel_sum F u big max HF Hu _ _ 0 0 u H2 ltac:(lra) ltac:(lra)) as H3.
    rewrite map_length in H3. fold k in H3. rewrite Hs in H3.
    assert (Hk1 : INR k * u <= / 32) by nra.
    specialize (H3 ltac:(lra) ltac:(rewrite Rminus_0_r, Rabs_R0; lra) ltac:(lra)).
    rewrite Rplus_0_l in H3. cbn [INR]. replace ((2 * (0 + INR k) + 1) * u * 1) with ((u + 2 * INR k * u) * 1) by ring. exact H3.
  Qed.

  Lemma kt_near_step i x y a h : kt_near i x y -> (S i <= n)%nat -> In a A ->
    exists x' y' lx ly, m_update (FKT_model F) x a h 1 = Ok (x', lx) /\ m_update KT_model y a h 1 = Ok (y', ly) /\
      Rabs (lx - ly) <= kt_off u k n /\ - L <= ly <= 0 /\ kt_near (S i) x' y'.
  Proof.
    intros (HI & HC & Hs & Hd) Hi Ha. pose proof k_pos as Hk. pose proof n_pos as Hn1.
    assert (Hin : INR i + 1 <= INR n) by (rewrite <- S_INR; apply le_INR; exact Hi). pose proof (pos_INR i) as Pi.
    pose proof HI as (HK & Hpos & Hsum & _).
    destruct (dict_get_key (kt_counts y) a ltac:(rewrite HK; exact Ha)) as [c' Hc'].
    destruct (alike_get _ _ _ _ _ HC Hc') as (c & Hc & Hk' & Hr).
    destruct (kt_update_ok A y a h 1 c' HI Hc' ltac:(lra)) as [Uy HI'].
    assert (Hik : 0 < / INR k) by (apply Rinv_0_lt_compat; lra).
    assert (Hcs : c' <= kt_sum y).
    { rewrite Hsum. apply Rsum_ge_elem; [intros z Hz; left; exact (Hpos z Hz)|]. apply dict_get_in in Hc'. apply (in_map snd) in Hc'. exact Hc'. }
    set (s' := kt_sum y) in *. set (s := kt_sum x) in *.
    set (r1 := (2 * INR i + 1) * u) in *. set (r2 := (2 * (INR i + INR k) + 1) * u) in *.
    assert (Hr1 : 0 <= r1 <= / 8) by (unfold r1; split; [apply Rmult_le_pos; lra|nra]).
    assert (Hr2 : 0 <= r2 <= / 8) by (unfold r2; split; [apply Rmult_le_pos; lra|nra]).
    destruct (rel_ln c c' r1 ltac:(lra) Hr ltac:(lra)) as [Pc Lc]. destruct (rel_ln s s' r2 ltac:(lra) Hd ltac:(lra)) as [Ps Ls].
    pose proof (abs_le _ _ Hr) as Rc. pose proof (abs_le _ _ Hd) as Rs.
    assert (Cb : 7 / 8 * c' <= c <= 9 / 8 * c') by nra. assert (Sb : 7 / 8 * s' <= s <= 9 / 8 * s') by nra.
    (* the exact value *)
    assert (Hly : - L <= ln (c' / s') <= 0).
    { split.
      - unfold L, kt_worst. replace (- ln (INR k * INR n)) with (ln (/ (INR k * INR n))) by (apply ln_Rinv; nra).
        apply ln_le; [apply Rinv_0_lt_compat; nra|]. rewrite Rinv_mult.
        apply Rmult_le_compat; [lra|left; apply Rinv_0_lt_compat; lra|exact Hk'|]. apply Rinv_le_contravar; lra.
      - rewrite <- ln_1. apply ln_le; [apply Rdiv_lt_0_compat; lra|]. apply Rmult_le_reg_r with s'; [lra|].
        unfold Rdiv. rewrite Rmult_assoc, Rinv_l by lra. lra. }
    (* the quotient *)
    assert (Hq : tiny <= c / s <= 2).
    { split.
      - eapply Rle_trans; [exact Htiny|]. replace (/ (2 * INR k * INR n)) with (/ INR k * / 2 * / INR n) by (field; lra).
        apply Rle_trans with (7 / 8 * c' * / (9 / 8 * s')).
        + replace (7 / 8 * c' * / (9 / 8 * s')) with (c' * (7 / 9) * / s') by (field; lra).
          apply Rmult_le_compat; [nra|left; apply Rinv_0_lt_compat; lra|nra|apply Rinv_le_contravar; lra].
        + apply Rmult_le_compat; [nra|left; apply Rinv_0_lt_compat; lra|lra|apply Rinv_le_contravar; lra].
      - apply Rmult_le_reg_r with s; [lra|]. unfold Rdiv. rewrite Rmult_assoc, Rinv_l by lra. lra. }
    pose proof (HQ c s Pc Ps Hq) as HQ1. assert (Pq : 0 < c / s) by (apply Rdiv_lt_0_compat; lra).
    destruct (rel_ln (f_div F c s) (c / s) u Pq HQ1 ltac:(lra)) as [Pq' Lq].
    set (q := f_div F c s) in *.
    assert (Eq1 : ln (c / s) = ln c - ln s) by (unfold Rdiv; rewrite ln_mult, ln_Rinv by (try apply Rinv_0_lt_compat; lra); ring).
    assert (Eq2 : ln (c' / s') = ln c' - ln s') by (unfold Rdiv; rewrite ln_mult, ln_Rinv by (try apply Rinv_0_lt_compat; lra); ring).
    pose proof (acc_log _ _ _ _ HF q Pq') as HL.
    assert (Hlq : Rabs (ln q - ln (c' / s')) <= 2 * r1 + 2 * r2 + 2 * u).
    { apply abs_le in Lc, Ls, Lq. apply Rabs_le. lra. }
    assert (Hrr : 2 * r1 + 2 * r2 + 2 * u <= u * (8 * INR n + 4 * INR k)) by (unfold r1, r2; nra).
    assert (Hr3 : u * (8 * INR n + 4 * INR k) <= 1) by nra.
    assert (Hoff : Rabs (f_log F q - ln (c' / s')) <= kt_off u k n).
    { apply abs_le in Hlq. assert (Ha1 : Rabs (ln q) <= L + 1) by (apply Rabs_le; lra).
      assert (Hb : u * (1 + Rabs (ln q)) <= u * (L + 2)) by (apply Rmult_le_compat_l; lra).
      apply abs_le in HL. unfold kt_off. fold L. apply Rabs_le.
      assert (Hx : u * (L + 16 * INR n + 8 * INR k + 12) = u * (L + 2) + u * (8 * INR n + 4 * INR k) + u * (8 * INR n + 4 * INR k + 10)) by ring.
      assert (0 <= u * (8 * INR n + 4 * INR k + 10)) by (apply Rmult_le_pos; lra). lra. }
    exists (KT (dict_set (kt_counts x) a (f_add F c 1)) (f_add F s 1)), (KT (dict_set (kt_counts y) a (c' + 1)) (s' + 1)), (f_log F q), (ln (c' / s')).
    split.
    { cbn [FKT_model m_update]. unfold fkt_update, fkt_log_predict, dict_lookup. rewrite Hc. cbn [bind]. unfold fp_div, fp_log. fold s q.
      destruct (Req_EM_T s 0); [lra|]. cbn [bind]. fold q. destruct (Rlt_dec 0 q); [|lra]. reflexivity. }
    split; [exact Uy|]. split; [exact Hoff|]. split; [exact Hly|].
    assert (R1 : Rabs (f_add F c 1 - (c' + 1)) <= (r1 + 2 * u) * (c' + 1)).
    { apply (rel_add F u big max HF Hu); try lra. replace (1 - 1) with 0 by ring. rewrite Rabs_R0. lra. }
    assert (R2 : Rabs (f_add F s 1 - (s' + 1)) <= (r2 + 2 * u) * (s' + 1)).
    { apply (rel_add F u big max HF Hu); try lra. replace (1 - 1) with 0 by ring. rewrite Rabs_R0. lra. }
    split; [exact HI'|]. cbn [kt_counts kt_sum]. rewrite S_INR.
    replace ((2 * (INR i + 1) + 1) * u) with (r1 + 2 * u) by (unfold r1; ring).
    replace ((2 * (INR i + 1 + INR k) + 1) * u) with (r2 + 2 * u) by (unfold r2; ring).
    split; [|split; [rewrite Hs; ring|exact R2]].
    apply alike_set; [|split; [lra|exact R1]]. eapply alike_mono; [|exact HC]. cbn. intros v w [Hw Hvw]. split; [exact Hw|].
    eapply Rle_trans; [exact Hvw|]. apply Rmult_le_compat_r; lra.
  Qed.

  Lemma kt_steady : exists f1, fkt_init F A = Ok f1 /\
    steady (FKT_model F) KT_model f1 (kt_init A) A any_hist n (kt_off u k n) L kt_near.
  Proof.
    destruct kt_start as (x & Hx & H0). exists x. split; [exact Hx|]. split; [exact H0|].
    intros i x' y a h H Hi Ha _. exact (kt_near_step i x' y a h H Hi Ha).
  Qed.
End kt.

Lemma kt_agrees F : agrees (FKT_model F).
Proof.
  intros s a h w. cbn [FKT_model m_update m_logp]. unfold fkt_update, fkt_log_predict. destruct (dict_lookup (kt_counts s) a) as [c|e]; [cbn [bind]|reflexivity].
  destruct (fp_div F c (kt_sum s)) as [q|e]; [cbn [bind]|reflexivity]. destruct (fp_log F q); reflexivity.
Qed.
