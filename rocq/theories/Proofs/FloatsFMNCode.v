(** The size of the code of FMN when floats round. *)
From Coq Require Import Lra Lia.
From Verif Require Import Spec.FloatsCodeSpec Spec.FloatsNestSpec Spec.ACSpec Spec.KTSpec Spec.SourceSpec Spec.PTWSpec Proofs.ZipModels Proofs.SourceProps.
From Verif Require Import Proofs.RealFacts Proofs.PyFacts Proofs.ProbFacts Proofs.KTFacts Proofs.KTBinFacts Proofs.KTRedundancy Proofs.AveragerFacts Proofs.PTWFacts Proofs.PTWTop Proofs.PTWMixture Proofs.PTWNorm Proofs.SeqFacts.
From Verif Require Import Proofs.FMNFacts Proofs.FMNProps Proofs.StoreFacts Proofs.UniformFacts Proofs.ACOverhead Proofs.FloatsFacts Proofs.FloatsAvgFacts Proofs.FloatsPTW Proofs.FloatsChop Proofs.FloatsPTWSteady Proofs.FloatsFMNFacts Proofs.FloatsFMNTop Proofs.FloatsFMNKT Proofs.FloatsACFacts Proofs.FloatsCode Proofs.FloatsCodeTop.
Open Scope R_scope.

(** A model that does not look at the history. *)
Definition blind {S} (M : model S) : Prop := forall s a h h' w, m_update M s a h w = m_update M s a h' w.

Lemma mapM_same {X Y} (f g : X -> result Y) l : (forall x, f x = g x) -> mapM f l = mapM g l.
Proof. intros H. induction l as [|x l IH]; cbn [mapM]; [reflexivity|]. rewrite H, IH. reflexivity. Qed.

Lemma favg_blind {S} F (M : model S) : blind M -> blind (FAVG_model F M).
Proof.
  intros HM s a h h' w. cbn [FAVG_model m_update]. unfold favg_update.
  erewrite mapM_same; [reflexivity|]. intros (k & x & lp). cbn beta iota. rewrite (HM x a h h' w). reflexivity.
Qed.

Lemma fpnode_blind {S} F (M : model S) m f : blind M -> forall n a h h' w, fpnode_update F M m f n a h w = fpnode_update F M m f n a h' w.
Proof.
  intros HM n. induction n as [b hh c bl ll l r IH] using pnode_rec_ind. intros a h h' w. cbn [fpnode_update].
  destruct (partition_is_complete _).
  - rewrite (HM b a h h' w), (HM f a h h' w). reflexivity.
  - rewrite (HM b a h h' w). destruct r as [r|]; [|reflexivity]. rewrite (IH a h h' w). reflexivity.
Qed.

Lemma ffmn_blind {S T} F (M : model S) (C : store_class (S := S) T) m : blind M -> blind (FFMN_model F M C m).
Proof.
  intros HM s a h h' w. cbn [FFMN_model m_update]. unfold ffmn_update, fptw_update.
  destruct (ffmn_factory F C (fm_models s)) as [x|e]; [cbn [bind]|reflexivity].
  rewrite (fpnode_blind F _ m x (favg_blind F M HM) (pt_tree (fm_ptw s)) a h h' w). reflexivity.
Qed.

Lemma fktb_blind F : blind (FKTB_model F).
Proof. intros s a h h' w. reflexivity. Qed.

Lemma away e L lx ly lz : 0 <= e <= / 2 -> Rabs (lx - ly) <= e -> - L <= ly <= 0 -> - L <= lz -> exp ly + exp lz = 1 ->
  exp (- L) - 2 * e <= exp lx <= 1 - (exp (- L) - 2 * e).
Proof.
  intros He E [Rl Ru] Rz Hs. apply abs_le in E.
  assert (A1 : exp (- L) <= exp ly) by (apply exp_le_mono; lra).
  assert (A2 : exp (- L) <= exp lz) by (apply exp_le_mono; lra).
  assert (A3 : exp ly <= 1) by (pose proof (exp_pos lz); lra).
  pose proof (exp_small e He) as A4.
  assert (B1 : exp lx <= exp ly * exp e) by (rewrite <- exp_plus; apply exp_le_mono; lra).
  assert (B2 : exp ly * exp (- e) <= exp lx) by (rewrite <- exp_plus; apply exp_le_mono; lra).
  pose proof (exp_ineq1_le (- e)) as A5. pose proof (exp_pos ly).
  split; nra.
Qed.

Section fmn.
  Variables (F : floats) (u big : R) (max : nat).
  Hypothesis HF : accurate F u big max.
  Hypothesis Hu : 0 <= u <= / 64.
  Context {S1 S2 T : Type} (M1 : model S1) (M2 : model S2) (C : store_class (S := S1) T) (TI : T -> Prop).
  Context (f1 : S1) (f2 : S2) (okh : list Z -> Prop) (Inv : S2 -> Prop)
    (N D : nat) (eps L : R) (bclose : nat -> S1 -> S2 -> Prop).
  Notation A := [0; 1]%Z.
  Hypothesis HB : blind M1.
  Hypothesis HC : store_law C TI.
  Hypothesis HT : steady M1 M2 f1 f2 A okh (2 * N) eps L bclose.
  Hypothesis HLw : lawful M2 A okh (eq 1) Inv.
  Hypothesis HI : forall n x y, bclose n x y -> Inv y.
  Hypothesis HD : forall xs t, st_adds C (st_empty C) xs = Ok t -> (length xs <= S N)%nat -> (length (st_iter C t) <= D)%nat.
  Hypothesis HN : (0 < N)%nat.
  Hypothesis HL : 0 <= L.
  Hypothesis Heps : 0 <= eps.
  Hypothesis Hmax : (2 * D <= max)%nat.
  Hypothesis Hbig : 2 * avg_size N D L 0 + 4 * (INR D + 1) ^ 2 <= big.
  Hypothesis Hsmall : 2 * avg_drift u N D L 0 eps <= 1.
  Hypothesis Hbig2 : 2 * ptw_size N L 0 + 6 <= big.
  Hypothesis Hsmall2 : 25 * (INR N * fmn_loss u N D L eps) <= 1.
  Variable m : nat.
  Let HS := law_step _ _ _ _ _ HLw.
  Let B := ptw_size N L 0.
  Let ea := avg_eps u N D L 0 eps.
  Let v := fmn_loss u N D L eps.
  Notation AM := (AVG_model M2).
  Notation FM := (FFMN_model F M1 C m).
  Notation sh := (shadow F u M1 M2 C TI A okh Inv N D eps L bclose m).
  Notation ainv := (avg_inv Inv).
  Let e := 45 * (INR N * v).
  Let d := exp (- L) - 2 * e.
  Hypothesis He2 : e <= / 2.

  (** members of averages, [n] steps after the average was made *)
  Definition made (n : nat) (a : avg S2) : Prop :=
    ainv a /\ forall k y lp, In (k, (y, lp)) (av_models a) -> exists j x, (j <= N)%nat /\ bclose (j + n) x y.

  Lemma made_step n a b h : made n a -> (S n <= N)%nat -> In b A -> okh h ->
    exists a' l, m_update AM a b h 1 = Ok (a', l) /\ - L <= l <= 0 /\ made (S n) a'.
  Proof.
    intros (Ha & Hm) Hn Hb Hh. destruct (avg_update_ok M2 A okh (eq 1) Inv HS a b h 1 Ha Hb Hh eq_refl) as (U & _ & Ha').
    eexists _, _. split; [exact U|]. destruct Ha as (Hne & HIa & Hlp).
    assert (Hstep : forall k y lp, In (k, (y, lp)) (av_models a) ->
      - L <= snd (upd_of M2 b h 1 y) <= 0 /\ exists j x, (j <= N)%nat /\ bclose (j + S n) x (fst (upd_of M2 b h 1 y))).
    { intros k y lp Hin. destruct (Hm k y lp Hin) as (j & x & Hj & Hc).
      destruct (sd_step _ _ _ _ _ _ _ _ _ _ HT (j + n) x y b h Hc ltac:(lia) Hb Hh) as (x' & y' & lx & ly & _ & V & _ & Rg & Hc').
      unfold upd_of. rewrite V. cbn [fst snd]. split; [exact Rg|]. exists j, x'. rewrite Nat.add_succ_r. auto. }
    split.
    - rewrite Hlp. set (ms := map (upd_entry M2 b h 1) (av_models a)).
      assert (Hms : avg_weights ms <> []) by (unfold ms; destruct (av_models a); [congruence|discriminate]).
      assert (Hws : avg_weights (av_models a) <> []) by (destruct (av_models a); [congruence|discriminate]).
      assert (E1 : Forall2 (fun x y => x <= y + 0) (avg_weights ms) (avg_weights (av_models a)) /\
                   Forall2 (fun x y => x <= y + L) (avg_weights (av_models a)) (avg_weights ms)).
      { unfold ms. clear -Hstep. induction (av_models a) as [|[k [y lp]] l IH]; [split; constructor|].
        destruct IH as [I1 I2]; [intros k' y' lp' H'; apply (Hstep k' y' lp'); now right|].
        destruct (Hstep k y lp (or_introl eq_refl)) as [Rg _].
        split; cbn [map avg_weights upd_entry snd]; constructor; try (cbn [snd]; lra); assumption. }
      destruct E1 as [E1 E2]. pose proof (lse_le _ _ _ Hms E1). pose proof (lse_le _ _ _ Hws E2). lra.
    - split; [exact Ha'|]. cbn [av_models]. intros k y lp Hin. apply in_map_iff in Hin as ([k0 [y0 l0]] & E & Hin).
      cbn [upd_entry] in E. injection E as <- <- <-. exact (proj2 (Hstep _ _ _ Hin)).
  Qed.

  Lemma made_new t xs ys a : (t <= N)%nat -> Forall2 (twin bclose t) xs ys -> avg_init (number_from 0 ys) = Ok a -> ainv a -> made 0 a.
  Proof.
    intros Ht Hxy Ha Hai. split; [exact Hai|]. unfold avg_init in Ha.
    destruct (py_div 1 _) as [q|]; [cbn [bind] in Ha|discriminate]. destruct (py_log q) as [l|]; [cbn [bind] in Ha|discriminate].
    injection Ha as <-. cbn [av_models].
    pose proof (fold_dict_set_app (fst (A:=Z) (B:=S2)) (fun kv => (snd kv, l)) (number_from 0 ys) []) as F1.
    rewrite F1; [|apply number_from_nodup|intros x _ []]. cbn [app].
    intros k y lp Hin. apply in_map_iff in Hin as ([k0 y0] & E & Hin). cbn [fst snd] in E. injection E as <- <- <-.
    apply number_from_keys in Hin as (_ & Hin). clear -Hxy Hin Ht.
    induction Hxy as [|x y' xs ys (j & Hj & H) _ IH]; [destruct Hin|]. destruct Hin as [->|Hin]; [|now apply IH].
    exists j, x. rewrite Nat.add_0_r. split; [lia|exact H].
  Qed.

  Lemma ea_pos : 0 <= ea.
  Proof. exact (@ea0 u max Hu S1 S2 T C TI f1 f2 Inv N D eps L bclose HC HI HD HN HL Heps Hmax m). Qed.

  (** One bit. *)
  Lemma code_step s0 seq s r mk p b : sh s0 [] seq s r mk p -> good made m (length seq) p -> (S (length seq) <= N)%nat -> is_bit b ->
    (forall c, is_bit c -> In c A) -> okh seq -> Forall (ok_event A okh (eq 1)) (events_from [] seq 1) ->
    exists s' r' mk' p' l, sh s0 [] (seq ++ [b]) s' r' mk' p' /\ good made m (S (length seq)) p' /\
      m_update FM s b [] 1 = Ok (s', l) /\ d <= exp l <= 1 - d /\ Rabs (l - (pt_lp (fm_ptw s') - pt_lp (fm_ptw s))) <= v.
  Proof.
    intros Sh Hg Hn Hb HA Hh Hev. pose proof ea_pos as Hea.
    assert (HBe : 4 * INR N * (L + 0 + 2) + 8 <= B) by (unfold B, ptw_size; lra).
    assert (Hall : forall c, is_bit c -> exists s' r' mk' p' l, sh s0 [] (seq ++ [c]) s' r' mk' p' /\ good made m (S (length seq)) p' /\
      m_update FM s c [] 1 = Ok (s', l) /\ Rabs (l - (pt_lp (fm_ptw s') - pt_lp (fm_ptw s))) <= v /\
      ptw_update AM m (mk (length seq)) p c seq 1 = Ok (p', pt_lp p' - pt_lp p) /\ Rabs (l - (pt_lp p' - pt_lp p)) <= e /\ - L <= pt_lp p' - pt_lp p <= 0).
    { intros c Hc.
      destruct (shadow_step_full F u big max HF Hu M1 M2 C TI f1 f2 A okh Inv N D eps L bclose HC HT HI HD HN HL Heps Hmax Hbig Hsmall Hbig2 Hsmall2 m
        s0 [] seq s r mk p c Sh Hn (HA c Hc) Hh) as (s' & r' & mk' & p' & Sh' & U & V). cbn [app] in U, V.
      destruct (sh_mk _ _ _ _ _ _ _ _ _ _ _ _ _ _ _ _ _ _ _ _ _ _ Sh (length seq) (le_n _)) as (st & lt & ys & _ & Hys & _ & _ & Hmk).
      pose proof (made_new (length seq) _ ys (mk (length seq)) ltac:(lia) Hys Hmk (sh_inv _ _ _ _ _ _ _ _ _ _ _ _ _ _ _ _ _ _ _ _ _ _ Sh _)) as Hmade.
      destruct (good_step AM (mk (length seq)) A okh N L made m HN Hmade made_step (length seq) p c seq Hg Hn (HA c Hc) Hh) as (p2 & l2 & V2 & Rg & Hg').
      cbn [PTW_model m_update] in V2. rewrite V in V2. injection V2 as <- <-.
      exists s', r', mk', p', (f_sub F (pt_lp (fm_ptw s')) (pt_lp (fm_ptw s))). split; [exact Sh'|]. split; [exact Hg'|].
      split; [rewrite (ffmn_blind F M1 C m HB s c [] seq 1); exact U|].
      pose proof (sh_near _ _ _ _ _ _ _ _ _ _ _ _ _ _ _ _ _ _ _ _ _ _ Sh) as Hp.
      pose proof (sh_near _ _ _ _ _ _ _ _ _ _ _ _ _ _ _ _ _ _ _ _ _ _ Sh') as Hp'.
      assert (El : length (seq ++ [c]) = S (length seq)) by (rewrite app_length; cbn [length]; lia). rewrite El in Hp'.
      pose proof (pt_diff F u big max HF Hu N ea L 0 _ m B HN HL (Rle_refl 0) Hea HBe Hbig2 Hsmall2 (length seq) _ _ _ _ Hp Hp' Hn) as Hd.
      destruct Hp as (d1 & _ & _ & _ & _ & H5 & _). destruct Hp' as (d2 & _ & _ & _ & _ & G5 & _).
      change (nu u _ _) with v in H5, G5.
      assert (Bp : 16 <= B) by (pose proof (le_INR 1 N ltac:(lia)) as I1; cbn [INR] in I1; unfold B, ptw_size; nra).
      assert (Q : u * (2 * B + 3) <= v).
      { unfold v, fmn_loss, ptw_loss. fold B ea. assert (u * (2 * B + 3) <= u * (3 * B + 20)) by (apply Rmult_le_compat_l; lra). lra. }
      assert (Q0 : 0 <= u * (2 * B + 3)) by (apply Rmult_le_pos; lra).
      assert (I1 : INR (S (length seq)) * v <= INR N * v) by (apply Rmult_le_compat_r; [lra|apply le_INR; exact Hn]).
      assert (I2 : INR (length seq) * v <= INR N * v) by (apply Rmult_le_compat_r; [lra|apply le_INR; lia]).
      assert (I3 : 1 * v <= INR N * v) by (apply Rmult_le_compat_r; [lra|apply (le_INR 1); lia]).
      split; [lra|]. split; [exact V|]. split; [|exact Rg]. apply abs_le in H5, G5, Hd. unfold e. apply Rabs_le. lra. }
    destruct (Hall 0%Z ltac:(now left)) as (s0' & r0' & mk0' & p0' & l0 & Sh0 & G0 & U0 & W0 & V0 & E0 & R0).
    destruct (Hall 1%Z ltac:(now right)) as (s1' & r1' & mk1' & p1' & l1 & Sh1 & G1 & U1 & W1 & V1 & E1 & R1).
    pose proof (ptw_update_norm AM A okh (eq 1) ainv (avg_lawful M2 A okh (eq 1) Inv HS HLw (ex_intro _ 1 eq_refl)) mk
      (sh_inv _ _ _ _ _ _ _ _ _ _ _ _ _ _ _ _ _ _ _ _ _ _ Sh) m (events_from [] seq 1) p _ seq 1 Hev Hh eq_refl
      (sh_feed _ _ _ _ _ _ _ _ _ _ _ _ _ _ _ _ _ _ _ _ _ _ Sh)) as Hsum.
    rewrite events_len in Hsum. cbn [map] in Hsum. unfold upd_prob in Hsum. rewrite V0, V1, !Rsum_cons, Rsum_nil in Hsum.
    assert (He : 0 <= e <= / 2).
    { split; [|exact He2]. pose proof (Rabs_pos (l0 - (pt_lp p0' - pt_lp p))). lra. }
    destruct Hb as [-> | ->].
    - exists s0', r0', mk0', p0', l0. split; [exact Sh0|]. split; [exact G0|]. split; [exact U0|]. split; [|exact W0].
      apply (away e L l0 (pt_lp p0' - pt_lp p) (pt_lp p1' - pt_lp p) He E0 R0); lra.
    - exists s1', r1', mk1', p1', l1. split; [exact Sh1|]. split; [exact G1|]. split; [exact U1|]. split; [|exact W1].
      apply (away e L l1 (pt_lp p1' - pt_lp p) (pt_lp p0' - pt_lp p) He E1 R1); lra.
  Qed.

  Lemma bit_in c : is_bit c -> In c A.
  Proof. intros [-> | ->]; cbn; auto. Qed.

  Hypothesis Hall : forall h, Forall is_bit h -> okh h.

  Lemma ok_bits seq : forall h, Forall is_bit h -> Forall is_bit seq -> Forall (ok_event A okh (eq 1)) (events_from h seq 1).
  Proof.
    induction seq as [|a seq IH]; intros h Hh Hs; cbn [events_from]; [constructor|]. inversion_clear Hs as [|? ? Ha Hs']. constructor.
    - split; [apply bit_in, Ha|]. split; [apply Hall, Hh|reflexivity].
    - apply IH; [|exact Hs']. apply Forall_app. split; [exact Hh|]. constructor; [exact Ha|constructor].
  Qed.

  Lemma code_run s0 : forall rest seq s r mk p, sh s0 [] seq s r mk p -> good made m (length seq) p ->
    (length seq + length rest <= N)%nat -> Forall is_bit seq -> Forall is_bit rest ->
    undecided FM d s rest /\ exists s' r' mk' p', sh s0 [] (seq ++ rest) s' r' mk' p' /\ 0 < seq_prob FM s (unit_events rest) /\
      - ln (seq_prob FM s (unit_events rest)) <= pt_lp (fm_ptw s) - pt_lp (fm_ptw s') + INR (length rest) * v.
  Proof.
    induction rest as [|b rest IH]; intros seq s r mk p Sh Hg Hn Hs Hr.
    - split; [exact I|]. exists s, r, mk, p. rewrite app_nil_r. split; [exact Sh|].
      cbn [unit_events map seq_prob length INR]. rewrite ln_1. lra.
    - inversion_clear Hr as [|? ? Hb Hr']. cbn [length] in Hn.
      destruct (code_step s0 seq s r mk p b Sh Hg ltac:(lia) Hb bit_in (Hall seq Hs) (ok_bits seq [] (Forall_nil _) Hs))
        as (s' & r' & mk' & p' & l & Sh' & Hg' & U & Hd & W).
      assert (El : length (seq ++ [b]) = S (length seq)) by (rewrite app_length; cbn [length]; lia).
      destruct (IH (seq ++ [b]) s' r' mk' p' Sh') as (Hun & s2 & r2 & mk2 & p2 & Sh2 & P2 & Hle).
      { rewrite El. exact Hg'. } { rewrite El. lia. }
      { apply Forall_app. split; [exact Hs|]. constructor; [exact Hb|constructor]. } { exact Hr'. }
      split; [cbn [undecided]; split; [exact Hb|]; exists s', l; auto|].
      exists s2, r2, mk2, p2. rewrite <- app_assoc in Sh2. split; [exact Sh2|].
      cbn [unit_events map seq_prob ev_sym ev_hist ev_wt]. fold (unit_events rest). rewrite U.
      pose proof (exp_pos l). split; [now apply Rmult_lt_0_compat|].
      rewrite ln_mult, ln_exp by assumption. cbn [length]. rewrite S_INR. apply abs_le in W. lra.
  Qed.

  Lemma code_all bits : length bits = N -> Forall is_bit bits ->
    exists s0 s r, ffmn_init F C m f1 = Ok s0 /\ fp_update_seq F FM s0 bits [] 1 = Ok (s, [], r) /\
      undecided FM d s0 bits /\ 0 < seq_prob FM s0 (unit_events bits) /\
      - ln (seq_prob FM s0 (unit_events bits)) <= - r + 2 * (INR N * v).
  Proof.
    intros HlN Hb.
    destruct (shadow_new F u big max HF Hu M1 M2 C TI f1 f2 A okh Inv N D eps L bclose HC HT HI HD HN HL Heps Hmax Hbig Hsmall m [])
      as (s0 & H0 & mk & p & Sh).
    assert (Hmk : exists a, p = ptw_init m a /\ made 0 a).
    { destruct (sh_mk _ _ _ _ _ _ _ _ _ _ _ _ _ _ _ _ _ _ _ _ _ _ Sh 0%nat (le_n _)) as (st & lt & ys & _ & Hys & _ & _ & Hmk).
      pose proof (sh_feed _ _ _ _ _ _ _ _ _ _ _ _ _ _ _ _ _ _ _ _ _ _ Sh) as Hf. cbn [events_from feed] in Hf. injection Hf as Hf _.
      exists (mk 0%nat). split; [symmetry; exact Hf|].
      apply (made_new 0 _ ys _ ltac:(lia) Hys Hmk (sh_inv _ _ _ _ _ _ _ _ _ _ _ _ _ _ _ _ _ _ _ _ _ _ Sh _)). }
    destruct Hmk as (a & -> & Hmade).
    assert (Hg : good made m 0 (ptw_init m a)) by exact (good_new AM a A okh N L made m HN Hmade made_step).
    destruct (code_run s0 bits [] s0 0 mk _ Sh Hg ltac:(cbn [length]; lia) (Forall_nil _) Hb) as (Hun & s & r & mk' & p' & Sh' & Pp & Hle).
    cbn [app] in Sh'. exists s0, s, r. split; [exact H0|]. split.
    { unfold fp_update_seq. rewrite (sh_loop _ _ _ _ _ _ _ _ _ _ _ _ _ _ _ _ _ _ _ _ _ _ Sh'). cbn [bind].
      rewrite clear_suffix; [reflexivity|]. intros ->. cbn in HlN. lia. }
    split; [exact Hun|]. split; [exact Pp|].
    pose proof (sh_sum _ _ _ _ _ _ _ _ _ _ _ _ _ _ _ _ _ _ _ _ _ _ Sh') as G.
    pose proof (sh_sum _ _ _ _ _ _ _ _ _ _ _ _ _ _ _ _ _ _ _ _ _ _ Sh) as G0. cbn [length INR] in G0. rewrite Rmult_0_l in G0.
    rewrite HlN in *. apply abs_le in G, G0. fold v in G. lra.
  Qed.
End fmn.

Lemma ktb_lawful1 : lawful KTB_model [0; 1]%Z bit_hist (eq 1) ktb_inv.
Proof.
  split.
  - apply (steps_one _ _ any_hist _ nonneg); [intros h' _; exact I|exact Rle_0_1|exact (law_step _ _ _ _ _ ktb_lawful)].
  - intros s h Hs _. exact (law_norm _ _ _ _ _ ktb_lawful s h Hs I).
Qed.

Section top.
  Context (F : floats) (mul : R -> R -> R) (u big : R) (max : nat).
  Hypothesis HF : accurate F u big max.
  Hypothesis Hu : 0 <= u <= / 64.
  Hypothesis Hbig1 : 1 <= big.
  Hypothesis Hmul : multiplies mul u (2 ^ 32).

  Theorem fmn_code {T} (C : store_class (S := ktb) T) TI D m bits fuel : let n := length bits in
    store_law C TI ->
    (forall xs t, st_adds C (st_empty C) xs = Ok t -> (length xs <= S n)%nat -> (length (st_iter C t) <= D)%nat) ->
    Forall is_bit bits -> bits <> [] -> (32 < fuel)%nat ->
    let L := kt_most (2 * n) in let eps := u * (L + 4) in let loss := fmn_loss u n D L eps in
    (4 * n + 2 <= max)%nat -> fmn_room u big max n D L eps ->
    32 * (2 * INR n + 1) * u <= 1 -> 8 * (2 * INR n + 1) * (45 * (INR n * loss)) <= 1 ->
    exists s0 s r code, ffmn_init F C m ktb_init = Ok s0 /\ fp_update_seq F (FFMN_model F (FKTB_model F) C m) s0 bits [] 1 = Ok (s, [], r) /\
      compress (fp_coder_of F mul (FFMN_model F (FKTB_model F) C m)) 32 fuel s0 bits = Ok code /\
      20 * (INR (length code) - 2) <= 26 * ((- r + INR n * (/ 64 + 2 * loss + 32 * (2 * INR n + 1) * u)) / ln 2 + 6).
  Proof.
    intros n HC HD Hb Hne Hf L eps loss Hmax (R1 & R2 & R3 & R4 & R5) H1 H2.
    assert (Hn : (0 < n)%nat) by (unfold n; destruct bits; [congruence|cbn; lia]).
    assert (Hn1 : 1 <= INR n) by (apply (le_INR 1); exact Hn). pose proof (most_pos (2 * n)) as HL. fold L in HL.
    assert (He0 : 0 <= eps) by (unfold eps; apply Rmult_le_pos; lra).
    assert (H45 : 45 * (INR n * loss) <= / 2) by nra.
    destruct (code_all F u big max HF Hu (FKTB_model F) KTB_model C TI ktb_init ktb_init bit_hist ktb_inv n D eps L ktb_same (fktb_blind F) HC
      (ktb_steady F u big max HF Hu (2 * n) ltac:(lia) ltac:(lia)) ktb_lawful1 ktb_same_inv HD Hn HL He0 R1 R2 R3 R4 R5 m H45) with (bits := bits)
      as (s0 & s & r & E0 & Es & Hun & Pp & Hle).
    { intros h Hh. split; [exact I|]. intros a Ha. rewrite Forall_forall in Hh. destruct (Hh a Ha) as [-> | ->]; cbn; auto. }
    { reflexivity. } { exact Hb. }
    fold loss in Hle, Hun. set (q := 2 * INR n + 1) in *.
    assert (HeL : exp (- L) = / (2 * q)).
    { unfold L, kt_most. rewrite mult_INR, exp_Ropp, exp_ln by (cbn [INR]; lra). f_equal. unfold q. cbn [INR]. ring. }
    rewrite HeL in Hun. set (e := 45 * (INR n * loss)) in *.
    assert (Hq : 3 <= q) by (unfold q; lra).
    assert (Hd : / (4 * q) <= / (2 * q) - 2 * e).
    { replace (/ (4 * q)) with (/ (2 * q) / 2) by (field; lra). assert (2 * e <= / (2 * q) / 2); [|lra].
      apply Rmult_le_reg_r with (2 * q); [lra|]. replace (/ (2 * q) / 2 * (2 * q)) with (/ 2) by (field; lra). lra. }
    destruct (small_loss u Hu (/ (2 * q) - 2 * e) q ltac:(lra) Hd H1) as [Hd4 Hsl].
    destruct (fp_redundancy F mul u big max HF (proj1 Hu) Hbig1 (FFMN_model F (FKTB_model F) C m) 32 6 fuel Hmul ltac:(lia) Hf ltac:(lia) ltac:(lia) ltac:(cbn; lia)
      _ Hd4 s0 bits Hun) as (code & Ec & _ & Hc).
    exists s0, s, r, code. split; [exact E0|]. split; [exact Es|]. split; [exact Ec|].
    replace (INR 32 - 2 * INR 6) with 20 in Hc by (cbn [INR]; lra). replace (INR 32 - INR 6) with 26 in Hc by (cbn [INR]; lra).
    replace (INR 6) with 6 in Hc by (cbn [INR]; lra). replace (2 ^ 6) with 64 in Hc by (cbn [pow]; lra).
    eapply Rle_trans; [exact Hc|]. apply Rmult_le_compat_l; [lra|]. apply Rplus_le_compat_r. pose proof ln2_pos as Hg.
    apply Rmult_le_compat_r; [left; now apply Rinv_0_lt_compat|]. change (length bits) with n. set (sl := split_loss _ _) in *.
    assert (INR n * sl <= INR n * (32 * q * u)) by (apply Rmult_le_compat_l; lra). lra.
  Qed.

  (** Against re-using retained models. *)
  Theorem fmn_code_competes m bits fuel : let n := length bits in let evs := events_from [] bits 1 in let D := (Nat.log2 (n + 1) + 1)%nat in
    let C := LogStore_class ktb in Forall is_bit bits -> bits <> [] -> (32 < fuel)%nat ->
    let L := kt_most (2 * n) in let eps := u * (L + 4) in let v := fmn_loss u n D L eps in
    (4 * n + 2 <= max)%nat -> fmn_room u big max n D L eps ->
    32 * (2 * INR n + 1) * u <= 1 -> 8 * (2 * INR n + 1) * (45 * (INR n * v)) <= 1 ->
    exists s0 code, ffmn_init F C m ktb_init = Ok s0 /\
      compress (fp_coder_of F mul (FFMN_model F (FKTB_model F) C m)) 32 fuel s0 bits = Ok code /\
      forall p (choice : nat -> ktb) (loss : nat -> R), let d := levels m n in
      let sgs := filter (fun sg : nat * nat => (fst sg <? n)%nat) (segments m d 0 p) in
      is_part d p ->
      (forall sg, In sg sgs -> In (choice (fst sg)) (fretained F (FKTB_model F) C m s0 evs (fst sg)) /\
        exists x, run (FKTB_model F) (choice (fst sg)) (firstn (snd sg) (skipn (fst sg) evs)) = Ok (x, - loss (fst sg))) ->
      20 * (INR (length code) - 2) <=
      26 * ((Rsum (map (fun sg => loss (fst sg) + ln (INR (length (fretained F (FKTB_model F) C m s0 evs (fst sg))))) sgs)
             + INR (pcost d p) * ln 2 + INR (pred d) * ln (3 / 2) + INR n * (/ 64 + 25 * v + eps + 32 * (2 * INR n + 1) * u)) / ln 2 + 6).
  Proof.
    intros n evs D C Hb Hne Hf L eps v Hmax HR H1 H2.
    destruct (fmn_code C _ D m bits fuel (logstore_law ktb) (fun xs t => log_store_size xs t n) Hb Hne Hf Hmax HR H1 H2) as (s0 & s & r & code & E0 & Es & Ec & Hc).
    pose proof (fmn_kt_log F u big max HF Hu bits [] m (proj2 (bits_are bits Hb)) (incl_nil_l _) Hne Hmax HR) as (s0' & s' & r' & E0' & Es' & Hcomp).
    fold C in E0', Es', Hcomp. rewrite E0 in E0'. injection E0' as <-. rewrite Es in Es'. injection Es' as <- <-.
    exists s0, code. split; [exact E0|]. split; [exact Ec|]. intros p choice loss d sgs Hp Hch.
    specialize (Hcomp p choice loss Hp Hch). fold n D L eps v evs d sgs in Hcomp.
    eapply Rle_trans; [exact Hc|]. apply Rmult_le_compat_l; [lra|]. apply Rplus_le_compat_r. pose proof ln2_pos as Hg.
    apply Rmult_le_compat_r; [left; now apply Rinv_0_lt_compat|]. fold n L eps v. fold D in Hcomp. lra.
  Qed.
End top.

Lemma fmn_code_example : let u := powerRZ 2 (-52) in let big := 1000000 in let max := Z.to_nat (2 ^ 52) in
  let bits := alternating 50 in let n := length bits in let D := (Nat.log2 (n + 1) + 1)%nat in
  let L := kt_most (2 * n) in let eps := u * (L + 4) in let v := fmn_loss u n D L eps in
  accurate (chopped 52) u big max /\ 0 <= u <= / 64 /\ 1 <= big /\ multiplies (fun x y => chop 52 (x * y)) u (2 ^ 32) /\
  Forall is_bit bits /\ bits <> [] /\ n = 100%nat /\ (4 * n + 2 <= max)%nat /\ fmn_room u big max n D L eps /\
  32 * (2 * INR n + 1) * u <= 1 /\ 8 * (2 * INR n + 1) * (45 * (INR n * v)) <= 1 /\
  INR n * (25 * v + eps + 32 * (2 * INR n + 1) * u) <= / 1000.
Proof.
  cbv zeta. pose proof (chopped_accurate 52 1000000 ltac:(lia)) as H1. pose proof (chopped_multiplies 52 (2 ^ 32)) as HM.
  destruct ptw_example as (_ & H2 & _). set (u := powerRZ 2 (-52)) in *.
  assert (Hu : u = / IZR (2 ^ 52)).
  { unfold u. replace (-52)%Z with (- (52))%Z by reflexivity. rewrite <- pow2_Z by lia.
    apply Rmult_eq_reg_r with (powerRZ 2 52); [|apply Rgt_not_eq, pow2_pos].
    rewrite <- pow2_add, Rinv_l by (apply Rgt_not_eq, pow2_pos). reflexivity. }
  change (2 ^ 52)%Z with 4503599627370496%Z in *.
  pose proof (alternating_bits 50) as Hb. assert (Hn : length (alternating 50) = 100%nat) by reflexivity.
  assert (Hne : alternating 50 <> []) by discriminate.
  set (bits := alternating 50) in *. clearbody bits. rewrite Hn.
  assert (I : INR 100 = 100) by (rewrite INR_IZR_INZ; reflexivity). assert (I2 : INR (2 * 100) = 200) by (rewrite INR_IZR_INZ; reflexivity).
  change (Nat.log2 (100 + 1) + 1)%nat with 7%nat. assert (I7 : INR 7 = 7) by (rewrite INR_IZR_INZ; reflexivity).
  assert (HL : 0 <= kt_most (2 * 100) <= 402).
  { unfold kt_most. rewrite I2. replace (2 * 200 + 2) with 402 by lra. split; [rewrite <- ln_1; apply ln_le; lra|].
    pose proof (exp_ineq1_le (ln 402)) as E2. rewrite exp_ln in E2 by lra. lra. }
  set (L := kt_most (2 * 100)) in *.
  assert (H7 : 0 <= ln 7 <= 7).
  { split; [rewrite <- ln_1; apply ln_le; lra|]. pose proof (exp_ineq1_le (ln 7)) as E2. rewrite exp_ln in E2 by lra. lra. }
  assert (He : 0 <= u * (L + 4) <= 406 * u) by (rewrite Hu in *; lra). set (eps := u * (L + 4)) in *.
  assert (Ha : 0 <= avg_size 100 7 L 0 <= 41000) by (unfold avg_size; rewrite I, I7; lra).
  assert (Hd : 0 <= avg_drift u 100 7 L 0 eps <= 5000000 * u).
  { unfold avg_drift. set (q := avg_size 100 7 L 0) in *. rewrite I, I7. rewrite Hu in *. lra. }
  assert (Hep : 0 <= avg_eps u 100 7 L 0 eps <= 11000000 * u).
  { unfold avg_eps. set (q := avg_size 100 7 L 0) in *. set (w := avg_drift _ _ _ _ _ _) in *. rewrite Hu in *. lra. }
  assert (Hps : 0 <= ptw_size 100 L 0 <= 170000) by (unfold ptw_size; rewrite I; lra).
  assert (Hv : 0 <= fmn_loss u 100 7 L eps <= 12000000 * u).
  { unfold fmn_loss, ptw_loss. set (q := ptw_size 100 L 0) in *. set (w := avg_eps _ _ _ _ _ _) in *. rewrite Hu in *. lra. }
  set (v := fmn_loss u 100 7 L eps) in *.
  assert (HR : fmn_room u 1000000 (Z.to_nat 4503599627370496) 100 7 L eps).
  { unfold fmn_room. fold v. split; [rewrite <- (Nat2Z.id (2 * 7)); apply Z2Nat.inj_le; lia|].
    split; [rewrite I7; lra|]. split; [rewrite Hu in *; lra|]. split; [lra|rewrite I; rewrite Hu in *; lra]. }
  rewrite I. repeat match goal with |- _ /\ _ => split end; try assumption; try reflexivity; try (rewrite Hu in *; lra).
  rewrite <- (Nat2Z.id (4 * 100 + 2)). apply Z2Nat.inj_le; lia.
Qed.
