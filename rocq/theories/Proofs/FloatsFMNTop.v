(** FMN with rounding competes with re-using the models it retains. *)
From Coq Require Import Lra Lia.
From Verif Require Import Spec.FloatsFMNSpec.
From Verif Require Import Proofs.RealFacts Proofs.PyFacts Proofs.ProbFacts Proofs.KTRedundancy Proofs.AveragerFacts Proofs.PTWFacts Proofs.PTWTop Proofs.PTWMixture Proofs.PTWNorm Proofs.PTWProps Proofs.SeqFacts.
From Verif Require Import Proofs.FMNFacts Proofs.FMNProps Proofs.FloatsFacts Proofs.FloatsPTW Proofs.FloatsFMNFacts.
Open Scope R_scope.

Lemma fp_loop_snoc F {S} (M : model S) seq a : forall s h w r s1 h1 r1 s2 l,
  fp_update_seq_loop F M s seq h w r = Ok (s1, h1, r1) -> m_update M s1 a h1 w = Ok (s2, l) ->
  fp_update_seq_loop F M s (seq ++ [a]) h w r = Ok (s2, h1 ++ [a], f_add F r1 l).
Proof.
  induction seq as [|x seq IH]; intros s h w r s1 h1 r1 s2 l; cbn [app fp_update_seq_loop].
  - intros H. injection H as <- <- <-. intros ->. reflexivity.
  - destruct (m_update M s x h w) as [[s' l']|e]; [cbn [bind]|discriminate]. intros H1 H2. eapply IH; eassumption.
Qed.

Lemma events_snoc seq a h w : events_from h (seq ++ [a]) w = events_from h seq w ++ [Event a (h ++ seq) w].
Proof.
  revert h. induction seq as [|x seq IH]; intros h; cbn [app events_from]; [rewrite app_nil_r; reflexivity|].
  rewrite IH, <- app_assoc. reflexivity.
Qed.
Lemma events_len seq : forall h w, length (events_from h seq w) = length seq.
Proof. induction seq as [|x seq IH]; intros h w; cbn; auto. Qed.

Lemma favg_lp {S} F (M : model S) s a h w s' l : m_update (FAVG_model F M) s a h w = Ok (s', l) -> l = f_sub F (av_lp s') (av_lp s).
Proof.
  cbn [FAVG_model m_update]. unfold favg_update. destruct (mapM _ _); [cbn [bind]|discriminate]. destruct (fp_logsumexp _ _); [cbn [bind]|discriminate].
  intros H. injection H as <- <-. reflexivity.
Qed.

Section fmn.
  Variables (F : floats) (u big : R) (max : nat).
  Hypothesis HF : accurate F u big max.
  Hypothesis Hu : 0 <= u <= / 64.
  Context {S1 S2 T : Type} (M1 : model S1) (M2 : model S2) (C : store_class (S := S1) T) (TI : T -> Prop).
  Context (f1 : S1) (f2 : S2) (A : list Z) (okh : list Z -> Prop) (Inv : S2 -> Prop)
    (N D : nat) (eps L : R) (bclose : nat -> S1 -> S2 -> Prop).
  Hypothesis HC : store_law C TI.
  Hypothesis HT : steady M1 M2 f1 f2 A okh (2 * N) eps L bclose.
  Hypothesis HS : steps M2 A okh (eq 1) Inv.
  Hypothesis HI : forall n x y, bclose n x y -> Inv y.
  Hypothesis HD : forall xs t, st_adds C (st_empty C) xs = Ok t -> (length xs <= S N)%nat -> (length (st_iter C t) <= D)%nat.
  Hypothesis HN : (0 < N)%nat.
  Hypothesis HL : 0 <= L.
  Hypothesis Heps : 0 <= eps.
  Hypothesis Hmax : (2 * D <= max)%nat.
  Hypothesis Hbig : 2 * avg_size N D L 0 + 4 * (INR D + 1) ^ 2 <= big.
  Hypothesis Hsmall : 2 * avg_drift u N D L 0 eps <= 1.
  Hypothesis Hbig2 : 2 * ptw_size N L 0 + 6 <= big.
  Hypothesis Hsmall2 : 25 * (INR N * fmn_loss u N D L eps) <= 1.
  Variable m : nat.
  Let B := ptw_size N L 0.
  Let ea := avg_eps u N D L 0 eps.
  Let v := fmn_loss u N D L eps.
  Notation AM := (AVG_model M2).
  Notation FA := (FAVG_model F M1).
  Notation FM := (FFMN_model F M1 C m).
  Notation ok := (ok_event A okh (eq 1)).
  Notation ainv := (avg_inv Inv).
  Notation acl := (aclose u M1 M2 A okh N D eps L bclose).

  Lemma ea0 : 0 <= ea.
  Proof.
    unfold ea, avg_eps, avg_drift, avg_size. pose proof (pos_INR N). assert (0 <= ln (INR D)).
    { destruct (sl_first _ _ HC f1) as (t0 & Ht0 & _ & Hit0). assert (H1 : (length (st_iter C t0) <= D)%nat).
      { apply (HD [f1]); [cbn [st_adds]; rewrite Ht0; reflexivity|cbn; lia]. }
      rewrite Hit0 in H1. apply le_INR in H1. cbn [length INR] in H1. rewrite <- ln_1. apply ln_le; lra. }
    assert (0 <= INR N * L) by (apply Rmult_le_pos; lra). set (q := INR N * L + 0 + ln (INR D) + 4).
    assert (0 <= u * q) by (apply Rmult_le_pos; unfold q; lra). assert (0 <= u * (INR D + 1) ^ 2) by (apply Rmult_le_pos; [lra|apply pow2_ge_0]).
    assert (0 <= INR N * (eps + u * q)) by (apply Rmult_le_pos; lra). lra.
  Qed.
  Lemma B_is : 4 * INR N * (L + 0 + 2) + 8 <= B.
  Proof. unfold B, ptw_size. lra. Qed.
  Lemma v_is : nu u ea B = v.
  Proof. reflexivity. Qed.

  Record shadow (s0 : fmn) (h seq : list Z) (s : fmn) (r : R) (mk : nat -> avg S2) (p : ptw (S := avg S2)) : Prop := {
    sh_loop : fp_update_seq_loop F FM s0 seq h 1 0 = Ok (s, h ++ seq, r);
    sh_run : exists l, run FM s0 (events_from h seq 1) = Ok (s, l);
    sh_t : fm_t s = length seq;
    sh_ti : TI (fm_models s);
    sh_adds : exists xs, st_adds C (st_empty C) xs = Ok (fm_models s) /\ (length xs <= S (length seq))%nat;
    sh_store : Forall (fun x => exists y, twin bclose (length seq) x y) (st_iter C (fm_models s));
    sh_tree : spine (members (fun x => exists y, twin bclose (length seq) x y)) (pt_tree (fm_ptw s));
    sh_near : ptnear u ea L 0 acl m B (length seq) (fm_ptw s) p;
    sh_sum : Rabs (r - pt_lp (fm_ptw s)) <= INR (length seq) * v;
    sh_feed : feed (fun t => ptw_update AM m (mk t)) 0 (ptw_init m (mk 0%nat)) (events_from h seq 1) = Ok (p, pt_lp p);
    sh_inv : forall t, ainv (mk t);
    sh_mk : forall t, (t <= length seq)%nat -> exists st lt ys, run FM s0 (firstn t (events_from h seq 1)) = Ok (st, lt) /\
      Forall2 (twin bclose t) (st_iter C (fm_models st)) ys /\ st_iter C (fm_models st) <> [] /\
      (length (st_iter C (fm_models st)) <= D)%nat /\ avg_init (number_from 0 ys) = Ok (mk t) }.

  Lemma twin_mono t t' x y : (t <= t')%nat -> twin bclose t x y -> twin bclose t' x y.
  Proof. intros Ht (j & Hj & H). exists j. split; [lia|exact H]. Qed.

  Lemma twins t xs : Forall (fun x => exists y, twin bclose t x y) xs -> exists ys, Forall2 (twin bclose t) xs ys.
  Proof.
    induction 1 as [|x xs (y & H) _ (ys & IH)]; [exists []; constructor|]. exists (y :: ys). constructor; assumption.
  Qed.

  Lemma twins_mono t t' xs ys : (t <= t')%nat -> Forall2 (twin bclose t) xs ys -> Forall2 (twin bclose t') xs ys.
  Proof. intros Ht. induction 1; constructor; [eapply twin_mono; eassumption|assumption]. Qed.

  (** what the factory returns for a store *)
  Lemma factory t models : (t <= N)%nat -> TI models -> (length (st_iter C models) <= D)%nat ->
    Forall (fun x => exists y, twin bclose t x y) (st_iter C models) ->
    exists ys a, Forall2 (twin bclose t) (st_iter C models) ys /\ avg_init (number_from 0 ys) = Ok a /\ ainv a.
  Proof.
    intros Ht HTI Hd Hx. destruct (twins t _ Hx) as (ys & Hys). pose proof (sl_nonempty _ _ HC _ HTI) as Hne.
    assert (Hne2 : ys <> []) by (inversion Hys; subst; congruence).
    destruct (avg_init_ok M2 Inv (number_from 0 ys)) as (a & Ha & Hai & _).
    - destruct ys; [congruence|discriminate].
    - apply number_from_nodup.
    - intros k y Hy. apply number_from_keys in Hy as (_ & Hy). clear -Hys Hy HI.
      induction Hys as [|x y' xs ys (j & _ & H) _ IH]; [destruct Hy|]. destruct Hy as [->|Hy]; [eapply HI; exact H|apply IH, Hy].
    - exists ys, a. auto.
  Qed.

  Lemma factory_tracks t xs ys a : (t <= N)%nat -> Forall2 (twin bclose t) xs ys -> xs <> [] -> (length xs <= D)%nat ->
    avg_init (number_from 0 ys) = Ok a ->
    exists a1, favg_init F (number_from 0 xs) = Ok a1 /\ tracks FA AM a1 a (okah A okh) N ea L 0 acl.
  Proof.
    intros Ht H Hne Hd Ha.
    destruct (average_of F u big max HF Hu M1 M2 f1 f2 A okh N D eps L bclose HT HL Heps Hmax Hbig Hsmall xs ys) as (s1 & s2 & I1 & I2 & HTr).
    - eapply twins_mono; [exact Ht|exact H].
    - destruct xs; [congruence|cbn [length] in *; lia].
    - rewrite Ha in I2. injection I2 as <-. exists s1. auto.
  Qed.

  Lemma shadow_new h : exists s0, ffmn_init F C m f1 = Ok s0 /\ exists mk p, shadow s0 h [] s0 0 mk p.
  Proof.
    destruct (sl_first _ _ HC f1) as (t0 & Ht0 & HT0 & Hit0).
    assert (H0 : Forall (fun x => exists y, twin bclose 0 x y) (st_iter C t0)).
    { rewrite Hit0. constructor; [|constructor]. exists f2, 0%nat. split; [lia|apply HT]. }
    assert (Hadds : st_adds C (st_empty C) [f1] = Ok t0) by (cbn [st_adds]; rewrite Ht0; reflexivity).
    assert (Hd : (length (st_iter C t0) <= D)%nat) by (apply (HD [f1]); [exact Hadds|cbn; lia]).
    pose proof (sl_nonempty _ _ HC _ HT0) as Hne.
    destruct (factory 0 t0 ltac:(lia) HT0 Hd H0) as (ys & a & Hys & Ha & Hai).
    destruct (factory_tracks 0 _ ys a ltac:(lia) Hys Hne Hd Ha) as (a1 & Ha1 & HTr).
    exists (FMN t0 (ptw_init m a1) 0). split; [unfold ffmn_init, ffmn_factory; rewrite Ht0; cbn [bind]; rewrite Ha1; reflexivity|].
    exists (fun _ => a), (ptw_init m a). split; cbn [length fm_t fm_models fm_ptw events_from].
    - cbn [fp_update_seq_loop]. rewrite app_nil_r. reflexivity.
    - exists 0. reflexivity.
    - reflexivity.
    - exact HT0.
    - exists [f1]. split; [exact Hadds|reflexivity].
    - exact H0.
    - cbn [ptw_init pt_tree new_pnode spine]. split; [|exact I]. eapply members_init; [exact Hne|exact H0|exact Ha1].
    - exact (ptnear_new u Hu FA AM a1 a (okah A okh) N ea L 0 acl HTr m B HN HL (Rle_refl 0) ea0 B_is).
    - cbn [ptw_init pt_lp INR]. rewrite Rminus_0_r, Rabs_R0. lra.
    - reflexivity.
    - intros _. exact Hai.
    - intros t Ht. assert (t = 0%nat) as -> by lia. exists (FMN t0 (ptw_init m a1) 0), 0, ys. cbn [firstn fm_models run].
      split; [reflexivity|]. auto.
  Qed.

  (** the sum of the values returned *)
  Lemma sum_step n (x : ptw (S := avg S1)) y x' y' r : (S n <= N)%nat -> ptnear u ea L 0 acl m B n x y -> ptnear u ea L 0 acl m B (S n) x' y' ->
    Rabs (r - pt_lp x) <= INR n * v -> Rabs (f_add F r (f_sub F (pt_lp x') (pt_lp x)) - pt_lp x') <= INR (S n) * v.
  Proof.
    intros Hn H H1 Hr.
    pose proof (pt_diff F u big max HF Hu N ea L 0 acl m B HN HL (Rle_refl 0) ea0 B_is Hbig2 Hsmall2 n x y x' y' H H1 Hn) as Hd.
    destruct H1 as (d1 & _ & _ & _ & _ & G5 & G6).
    pose proof (nsmall u Hu N ea L 0 B HN HL (Rle_refl 0) ea0 B_is Hsmall2 (S n) Hn) as T1.
    pose proof (nsmall u Hu N ea L 0 B HN HL (Rle_refl 0) ea0 B_is Hsmall2 n ltac:(lia)) as T2.
    pose proof (B0 N L 0 B HN HL (Rle_refl 0) B_is) as HB0. pose proof (nu1 u Hu N ea L 0 B HN HL (Rle_refl 0) ea0 B_is Hsmall2) as Hnu1.
    rewrite v_is in *. pose proof ea0 as He.
    assert (HuB : u * (2 * B + 3) + u * (B + 3) <= v).
    { unfold v, fmn_loss, ptw_loss. fold B ea. assert (0 <= u * 14) by lra. lra. }
    assert (Hub : 0 <= u * (B + 3)) by (apply Rmult_le_pos; lra).
    apply abs_le in Hr, Hd, G5, G6. set (q := f_sub F _ _) in *.
    assert (Ha2 : Rabs (f_add F r q - (r + q)) <= u * (B + 3)).
    { unfold ptw_size in Hbig2. fold B in Hbig2. apply (add_err F u big max HF Hu); [apply Rabs_le; lra|]. unfold B, ptw_size. unfold B, ptw_size in HB0. lra. }
    apply abs_le in Ha2. rewrite S_INR. apply Rabs_le. lra.
  Qed.

  Lemma shadow_step_full s0 h seq s r mk p a : shadow s0 h seq s r mk p -> (S (length seq) <= N)%nat -> In a A -> okh (h ++ seq) ->
    exists s' r' mk' p', shadow s0 h (seq ++ [a]) s' r' mk' p' /\
      m_update FM s a (h ++ seq) 1 = Ok (s', f_sub F (pt_lp (fm_ptw s')) (pt_lp (fm_ptw s))) /\
      ptw_update AM m (mk (length seq)) p a (h ++ seq) 1 = Ok (p', pt_lp p' - pt_lp p).
  Proof.
    intros Sh Hn Ha Hh. set (n := length seq) in *. pose proof (sh_store _ _ _ _ _ _ _ Sh) as Hst. pose proof (sh_ti _ _ _ _ _ _ _ Sh) as HTI.
    destruct (sh_run _ _ _ _ _ _ _ Sh) as (l & Hrun). pose proof (events_len seq h 1) as Hlev. fold n in Hlev.
    destruct (sh_mk _ _ _ _ _ _ _ Sh n (le_n _)) as (st & lt & ys & Hr & Hys & Hne & Hd & Hmk).
    rewrite firstn_all2 in Hr by lia. rewrite Hrun in Hr. injection Hr as <- <-.
    destruct (factory_tracks n _ ys (mk n) ltac:(lia) Hys Hne Hd Hmk) as (a1 & Ha1 & HTr).
    destruct (ptnear_step F u big max HF Hu FA AM a1 (mk n) (okah A okh) N ea L 0 acl HTr m B HN HL (Rle_refl 0) ea0 B_is Hbig2 Hsmall2
      n (fm_ptw s) p a (h ++ seq) (sh_near _ _ _ _ _ _ _ Sh) Hn (conj Ha Hh)) as (x' & p' & U1 & U2 & Hnear).
    assert (Hnext : forall x x' lx, (exists y, twin bclose n x y) -> m_update M1 x a (h ++ seq) 1 = Ok (x', lx) -> exists y, twin bclose (S n) x' y).
    { intros x x2 lx (y & j & Hj & Hb) Hx.
      destruct (sd_step _ _ _ _ _ _ _ _ _ _ HT j x y a (h ++ seq) Hb ltac:(lia) Ha Hh) as (x3 & y3 & lx3 & ly3 & V1 & _ & _ & _ & Hb3).
      rewrite Hx in V1. injection V1 as <- <-. exists y3, (S j). split; [lia|exact Hb3]. }
    assert (Htree : spine (members (fun x => exists y, twin bclose (S n) x y)) (pt_tree x')).
    { cbn [FPTW_model m_update] in U1. unfold fptw_update in U1. destruct (fpnode_update F FA m a1 (pt_tree (fm_ptw s)) a (h ++ seq) 1) as [t'|e] eqn:Et; [cbn [bind] in U1|discriminate].
      injection U1 as <-. cbn [pt_tree]. eapply spine_update; [| |apply (sh_tree _ _ _ _ _ _ _ Sh)|exact Et].
      - eapply members_init; [exact Hne|exact Hst|exact Ha1].
      - intros b b' lb Hb Hub. eapply members_update; [exact Hnext|exact Hb|exact Hub]. }
    destruct (sh_adds _ _ _ _ _ _ _ Sh) as (xs & Hadds & Hxs). fold n in Hxs.
    set (l1 := f_sub F (pt_lp x') (pt_lp (fm_ptw s))) in *.
    assert (Hstep : exists models' xs', m_update FM s a (h ++ seq) 1 = Ok (FMN models' x' (S n), l1) /\ TI models' /\
      Forall (fun x => exists y, twin bclose (S n) x y) (st_iter C models') /\ st_adds C (st_empty C) xs' = Ok models' /\ (length xs' <= S (S n))%nat).
    { assert (Hst' : Forall (fun x => exists y, twin bclose (S n) x y) (st_iter C (fm_models s))).
      { eapply Forall_impl; [|exact Hst]. cbn beta. intros x (y & H). exists y. eapply twin_mono; [|exact H]. lia. }
      cbn [FFMN_model m_update]. unfold ffmn_update, ffmn_factory. rewrite Ha1. cbn [bind].
      change (m_update (FPTW_model F FA m a1)) with (fptw_update F FA m a1) in U1. rewrite U1. cbn [bind].
      rewrite (sh_t _ _ _ _ _ _ _ Sh). fold n. replace (n + 1)%nat with (S n) by lia.
      destruct (Nat.eqb _ 0).
      - destruct (members_map _ _ (spine_map F _ x' Htree)) as (k & xm & -> & Hxm). cbn [bind].
        destruct (sl_add _ _ HC _ xm HTI) as (models' & Hadd & HTI' & Hincl). rewrite Hadd. cbn [bind].
        exists models', (xs ++ [xm]). split; [reflexivity|]. split; [exact HTI'|]. split.
        + rewrite Forall_forall in *. intros x Hx. apply Hincl in Hx as [<-|Hx]; [exact Hxm|apply Hst', Hx].
        + split; [rewrite st_adds_app, Hadds; cbn [bind st_adds]; rewrite Hadd; reflexivity|]. rewrite app_length. cbn [length]. lia.
      - exists (fm_models s), xs. split; [reflexivity|]. split; [exact HTI|]. split; [exact Hst'|]. split; [exact Hadds|lia]. }
    destruct Hstep as (models' & xs' & Hupd & HTI' & Hst' & Hadds' & Hxs').
    assert (Hd' : (length (st_iter C models') <= D)%nat) by (apply (HD xs'); [exact Hadds'|lia]).
    destruct (factory (S n) models' Hn HTI' Hd' Hst') as (ys' & a' & Hys' & Ha' & Hai').
    set (s' := FMN models' x' (S n)) in *.
    set (mk' := fun t => if (t <=? n)%nat then mk t else a').
    assert (Hmk' : forall t, (t <= n)%nat -> mk' t = mk t).
    { intros t Ht. unfold mk'. apply Nat.leb_le in Ht. rewrite Ht. reflexivity. }
    assert (Hrun' : run FM s0 (events_from h (seq ++ [a]) 1) = Ok (s', l + l1)).
    { rewrite events_snoc. eapply run_snoc; [exact Hrun|exact Hupd]. }
    assert (Hlen : length (seq ++ [a]) = S n) by (rewrite app_length; cbn [length]; unfold n; lia).
    exists s', (f_add F r l1), mk', p'. split; [|split; [exact Hupd|exact U2]]. split; try (rewrite Hlen); cbn [s' fm_t fm_models fm_ptw].
    - pose proof (fp_loop_snoc F FM seq a s0 h 1 0 s _ r s' l1 (sh_loop _ _ _ _ _ _ _ Sh) Hupd) as H. rewrite <- app_assoc in H. exact H.
    - exists (l + l1). exact Hrun'.
    - reflexivity.
    - exact HTI'.
    - exists xs'. auto.
    - exact Hst'.
    - exact Htree.
    - exact Hnear.
    - exact (sum_step n _ _ _ _ r Hn (sh_near _ _ _ _ _ _ _ Sh) Hnear (sh_sum _ _ _ _ _ _ _ Sh)).
    - rewrite events_snoc. replace (pt_lp p') with (pt_lp p + (pt_lp p' - pt_lp p)) by ring.
      eapply feed_snoc with (s1 := p).
      + rewrite (Hmk' 0%nat) by lia. rewrite <- (sh_feed _ _ _ _ _ _ _ Sh). apply feed_ext.
        intros k Hk. rewrite (Hmk' k) by lia. reflexivity.
      + rewrite Nat.add_0_l, Hlev, (Hmk' n) by lia. exact U2.
    - intros t. unfold mk'. destruct (t <=? n)%nat; [apply (sh_inv _ _ _ _ _ _ _ Sh)|exact Hai'].
    - intros t Ht. destruct (Nat.le_gt_cases t n) as [Htn|Htn].
      + rewrite (Hmk' t Htn), events_snoc, firstn_snoc_le by lia. apply (sh_mk _ _ _ _ _ _ _ Sh t Htn).
      + assert (t = S n) as -> by lia. exists s', (l + l1), ys'. rewrite firstn_all2 by (rewrite events_len; lia).
        split; [exact Hrun'|]. cbn [s' fm_models]. split; [exact Hys'|]. split; [apply (sl_nonempty _ _ HC _ HTI')|]. split; [exact Hd'|].
        unfold mk'. replace (S n <=? n)%nat with false by (symmetry; apply Nat.leb_gt; lia). exact Ha'.
  Qed.

  Lemma shadow_step s0 h seq s r mk p a : shadow s0 h seq s r mk p -> (S (length seq) <= N)%nat -> In a A -> okh (h ++ seq) ->
    exists s' r' mk' p', shadow s0 h (seq ++ [a]) s' r' mk' p'.
  Proof.
    intros Sh Hn Ha Hh. destruct (shadow_step_full s0 h seq s r mk p a Sh Hn Ha Hh) as (s' & r' & mk' & p' & H & _).
    exists s', r', mk', p'. exact H.
  Qed.

  Lemma shadow_run h seq : (length seq <= N)%nat -> Forall ok (events_from h seq 1) ->
    exists s0, ffmn_init F C m f1 = Ok s0 /\ exists s r mk p, shadow s0 h seq s r mk p.
  Proof.
    destruct (shadow_new h) as (s0 & H0 & mk0 & p0 & Sh0). intros Hn Hev. exists s0. split; [exact H0|].
    induction seq as [|a seq IH] using rev_ind; [exists s0, 0, mk0, p0; exact Sh0|].
    rewrite app_length in Hn. cbn [length] in Hn. rewrite events_snoc in Hev. apply Forall_app in Hev as (Hev & He).
    apply Forall_inv in He as (Ha & Hh & _). destruct (IH ltac:(lia) Hev) as (s & r & mk & p & Sh).
    apply (shadow_step s0 h seq s r mk p a Sh); [lia|exact Ha|exact Hh].
  Qed.

  (** One segment: the exact average of the twins against one of them. *)
  Lemma segment xs ys t x (seg : list event) a x' l1 : Forall2 (twin bclose t) xs ys -> (t + length seg <= N)%nat -> In x xs ->
    avg_init (number_from 0 ys) = Ok a -> Forall ok seg -> run M1 x seg = Ok (x', l1) ->
    - ln (seq_prob AM a seg) <= - l1 + INR (length seg) * eps + ln (INR (length xs)).
  Proof.
    intros Hxy Hn Hx Ha Hseg Hr.
    assert (Hy : exists y, In y ys /\ twin bclose t x y).
    { clear -Hxy Hx. induction Hxy as [|x0 y0 xs ys H _ IH]; [destruct Hx|]. destruct Hx as [->|Hx]; [exists y0; split; [left; reflexivity|exact H]|].
      destruct (IH Hx) as (y & H1 & H2). exists y. split; [right; exact H1|exact H2]. }
    destruct Hy as (y & Hy & j & Hj & Hb).
    destruct (twin_run max M1 M2 f1 f2 A okh N D eps L bclose HT Hmax seg j x y Hb ltac:(lia) Hseg) as (x2 & y2 & lx & ly & R1 & R2 & E).
    rewrite Hr in R1. injection R1 as <- <-. apply abs_le in E.
    assert (HIy : forall y, In y ys -> Inv y).
    { clear -Hxy HI. intros y Hy. induction Hxy as [|x0 y' xs ys (j & _ & H) _ IH]; [destruct Hy|]. destruct Hy as [->|Hy]; [eapply HI; exact H|apply IH, Hy]. }
    set (ms := number_from 0 ys) in *. assert (Hms : ms <> []) by (unfold ms; destruct ys; [destruct Hy|discriminate]).
    destruct (avg_mixture M2 A okh (eq 1) Inv HS ms seg Hms (number_from_nodup _ _)) as (a' & a2 & l & Ha' & Hra & _ & _ & _ & Hexp); [|exact Hseg|].
    { intros i z Hz. apply number_from_keys in Hz as (_ & Hz). apply HIy, Hz. }
    rewrite Ha in Ha'. injection Ha' as <-. rewrite (seq_prob_run _ _ _ _ _ Hra), ln_exp.
    assert (El : length ms = length xs).
    { unfold ms. rewrite number_from_length. clear -Hxy. induction Hxy; cbn; congruence. }
    rewrite El in Hexp. assert (Hlx : 0 < INR (length xs)) by (apply lt_0_INR; destruct xs; [destruct Hx|cbn; lia]).
    destruct (number_from_in _ 0%Z y Hy) as (k & Hk). fold ms in Hk.
    assert (Hge : exp ly <= Rsum (map (fun km : Z * S2 => seq_prob M2 (snd km) seg) ms)).
    { rewrite <- (seq_prob_run _ _ _ _ _ R2). apply Rsum_ge_elem; [|apply (in_map (fun km : Z * S2 => seq_prob M2 (snd km) seg) ms (k, y) Hk)].
      intros z Hz. apply in_map_iff in Hz as ((k' & y') & <- & Hz). left. apply number_from_keys in Hz as (_ & Hz).
      eapply steps_seq_prob_pos; [exact HS|apply HIy; exact Hz|exact Hseg]. }
    assert (Hl : ly - ln (INR (length xs)) <= l).
    { rewrite <- (ln_exp l), Hexp. rewrite <- (ln_exp (ly - ln (INR (length xs)))). apply ln_le; [apply exp_pos|].
      unfold Rminus. rewrite exp_plus, exp_Ropp, exp_ln by exact Hlx. rewrite Rmult_comm. apply Rmult_le_compat_l; [left; apply Rinv_0_lt_compat, Hlx|exact Hge]. }
    lra.
  Qed.

  Lemma tiles_len (evs : list event) sgs : forall a b, tiles a sgs b ->
    Rsum (map (fun sg : nat * nat => INR (length (firstn (snd sg) (skipn (fst sg) evs)))) sgs) <= INR (length evs - a).
  Proof.
    induction sgs as [|[c len] sgs IH]; intros a b; cbn [tiles map].
    - intros _. rewrite Rsum_nil. apply pos_INR.
    - intros (-> & Ht). specialize (IH _ _ Ht). rewrite Rsum_cons. cbn [fst snd] in *.
      eapply Rle_trans; [apply Rplus_le_compat_l; exact IH|]. rewrite <- plus_INR. apply le_INR. rewrite firstn_length, skipn_length. lia.
  Qed.

  Lemma competes h seq : length seq = N -> Forall ok (events_from h seq 1) ->
    let evs := events_from h seq 1 in
    exists s0 s r, ffmn_init F C m f1 = Ok s0 /\ fp_update_seq F FM s0 seq h 1 = Ok (s, h, r) /\
      forall p (choice : nat -> S1) (loss : nat -> R),
      let d := levels m N in
      let sgs := filter (fun sg : nat * nat => (fst sg <? N)%nat) (segments m d 0 p) in
      is_part d p ->
      (forall sg, In sg sgs -> In (choice (fst sg)) (fretained F M1 C m s0 evs (fst sg)) /\
        exists x, run M1 (choice (fst sg)) (firstn (snd sg) (skipn (fst sg) evs)) = Ok (x, - loss (fst sg))) ->
      - r <= Rsum (map (fun sg => loss (fst sg) + ln (INR (length (fretained F M1 C m s0 evs (fst sg))))) sgs)
             + INR (pcost d p) * ln 2 + INR (pred d) * ln (3 / 2) + INR N * (23 * v + eps).
  Proof.
    intros HlN Hev evs. destruct (shadow_run h seq ltac:(lia) Hev) as (s0 & H0 & s & r & mk & p2 & Sh).
    exists s0, s, r. split; [exact H0|].
    assert (Hsne : seq <> []) by (intros ->; cbn in HlN; lia).
    split. { unfold fp_update_seq. rewrite (sh_loop _ _ _ _ _ _ _ Sh). cbn [bind]. rewrite clear_suffix by exact Hsne. reflexivity. }
    intros p choice loss d sgs Hp Hch.
    pose proof (avg_steps M2 A okh (eq 1) Inv HS) as HAS.
    pose proof (events_len seq h 1) as Hlev. fold evs in Hlev. rewrite HlN in Hlev.
    assert (Hp' : is_part (levels m (length evs)) p) by (rewrite Hlev; exact Hp).
    destruct (ptw_unknown_regret AM A okh (eq 1) (avg_inv Inv) HAS mk (sh_inv _ _ _ _ _ _ _ Sh) m evs p Hev Hp') as (sp & lp & Hfeed & Hreg).
    unfold evs in Hfeed. rewrite (sh_feed _ _ _ _ _ _ _ Sh) in Hfeed. injection Hfeed as <- <-. rewrite Hlev in Hreg. fold d in Hreg.
    assert (Hseg : forall b len, Forall ok (firstn len (skipn b evs))) by (intros; apply Forall_firstn, Forall_skipn, Hev).
    rewrite (part_prob_segments AM mk m p d 0%nat evs Hp) in Hreg by (rewrite Hlev; apply levels_fit).
    rewrite (Rprod_map_ext _ (fun sg => seq_prob AM (mk (fst sg)) (firstn (snd sg) (skipn (fst sg) evs)))) in Hreg.
    2:{ intros sg _. rewrite Nat.sub_0_r. reflexivity. }
    set (f := fun sg : nat * nat => seq_prob AM (mk (fst sg)) (firstn (snd sg) (skipn (fst sg) evs))) in *.
    assert (Hfpos : forall sg, 0 < f sg).
    { intros sg. unfold f. eapply steps_seq_prob_pos; [exact HAS|apply (sh_inv _ _ _ _ _ _ _ Sh)|apply Hseg]. }
    destruct (ln_Rprod f (segments m d 0 p) (fun sg _ => Hfpos sg)) as (_ & Hln). rewrite Hln in Hreg. clear Hln.
    set (g := fun sg : nat * nat => INR (length (firstn (snd sg) (skipn (fst sg) evs)))).
    assert (Hbound : - Rsum (map (fun sg => ln (f sg)) (segments m d 0 p)) <=
       Rsum (map (fun sg => loss (fst sg) + ln (INR (length (fretained F M1 C m s0 evs (fst sg))))) sgs) + Rsum (map g (segments m d 0 p)) * eps).
    { unfold sgs in *. clear Hreg. induction (segments m d 0 p) as [|sg L0 IH]; [cbn [map filter]; rewrite !Rsum_nil; lra|].
      cbn [map filter] in *. rewrite !Rsum_cons.
      destruct (Nat.ltb_spec (fst sg) N) as [Hlt|Hge].
      - specialize (IH (fun x Hx => Hch x (or_intror Hx))). cbn [map]. rewrite Rsum_cons.
        destruct (Hch sg (or_introl eq_refl)) as (Hc & x & Hx). 
        destruct (sh_mk _ _ _ _ _ _ _ Sh (fst sg) ltac:(lia)) as (st & lt & ys & Hst & Hys & Hne & _ & Hmk). fold evs in Hst.
        assert (Er : fretained F M1 C m s0 evs (fst sg) = st_iter C (fm_models st)) by (unfold fretained; rewrite Hst; reflexivity).
        rewrite Er in Hc |- *.
        pose proof (segment _ ys (fst sg) (choice (fst sg)) (firstn (snd sg) (skipn (fst sg) evs)) (mk (fst sg)) x (- loss (fst sg)) Hys) as Hb.
        specialize (Hb ltac:(rewrite firstn_length, skipn_length; lia) Hc Hmk (Hseg _ _) Hx).
        fold (f sg) in Hb. fold (g sg) in Hb. lra.
      - specialize (IH Hch). assert (E : ln (f sg) = 0).
        { unfold f. rewrite skipn_all2 by lia. rewrite firstn_nil. cbn [seq_prob]. apply ln_1. }
        rewrite E. assert (0 <= g sg * eps) by (apply Rmult_le_pos; [apply pos_INR|exact Heps]). lra. }
    assert (Hg : Rsum (map g (segments m d 0 p)) * eps <= INR N * eps).
    { apply Rmult_le_compat_r; [exact Heps|]. pose proof (tiles_len evs _ _ _ (segments_tile m p d 0 Hp)) as H. rewrite Nat.sub_0_r, Hlev in H. exact H. }
    destruct (sh_near _ _ _ _ _ _ _ Sh) as (d1 & _ & _ & _ & _ & G5 & _). pose proof (sh_sum _ _ _ _ _ _ _ Sh) as G6.
    rewrite HlN in G5, G6. rewrite v_is in G5. apply abs_le in G5, G6. lra.
  Qed.
End fmn.
