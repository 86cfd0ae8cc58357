(** Totals, predictions and combinations of models computed with rounding. *)
From Coq Require Import Lra Lia.
From Verif Require Import Spec.FloatsAnySpec.
From Verif Require Import Proofs.RealFacts Proofs.PyFacts Proofs.ProbFacts Proofs.KTRedundancy Proofs.KTFacts Proofs.CTWProps Proofs.SeqFacts Proofs.FMNFacts Proofs.AgreeFacts.
From Verif Require Import Proofs.FloatsFacts Proofs.FloatsPTW Proofs.FloatsChop Proofs.FloatsFMNTop Proofs.FloatsFMNKT Proofs.FloatsKTAny Proofs.FloatsCTWAny.
Open Scope R_scope.

(** Whatever the rounding, updating returns the very number that predicting returns. *)
Lemma ctw_agrees {S} F (M : model S) fresh binary : agrees M -> agrees (FCTW_model F M fresh binary).
Proof.
  intros HM s a h w. cbn [FCTW_model m_update m_logp]. unfold fctw_update, fctw_log_predict.
  assert (H : forall ctx n, (do (_, l, _) <- fnode_update F M fresh binary ctx n a h w; Ok l) = (do (_, l, _) <- fnode_log_predict F M fresh binary ctx n a h; Ok l)).
  { induction ctx as [|c ctx IH]; intros [b p cl lp ch]; cbn [fnode_update fnode_log_predict]; rewrite <- (HM b a h w);
      (destruct (m_update M b a h w) as [[b' l]|e]; cbn [bind]; [|reflexivity]); [reflexivity|].
    destruct (child_key binary c) as [k|e]; cbn [bind]; [|reflexivity].
    destruct (match dict_get ch k with Some x => (x, 0%nat) | None => (new_node fresh, 1%nat) end) as [child made].
    specialize (IH child). destruct (fnode_update F M fresh binary ctx child a h w) as [[[x1 r1] m1]|e1],
      (fnode_log_predict F M fresh binary ctx child a h) as [[[x2 r2] m2]|e2]; cbn [bind] in *; congruence. }
  specialize (H (rev (mkcontext (ctw_depth s) h)) (ctw_tree s)).
  destruct (fnode_update F M fresh binary _ _ a h w) as [[[x1 r1] m1]|e1], (fnode_log_predict F M fresh binary _ _ a h) as [[[x2 r2] m2]|e2]; cbn [bind] in *; congruence.
Qed.

Section steady.
  Context {S1 S2 : Type} (M1 : model S1) (M2 : model S2) (f1 : S1) (f2 : S2) (A : list Z) (okh : list Z -> Prop)
    (N : nat) (eps L : R) (close : nat -> S1 -> S2 -> Prop).
  Hypothesis HT : steady M1 M2 f1 f2 A okh N eps L close.

  Lemma steady_inv Inv : steps M2 A okh (eq 1) Inv -> Inv f2 -> steady M1 M2 f1 f2 A okh N eps L (fun n x y => close n x y /\ Inv y).
  Proof.
    intros HS HI. split; [split; [exact (sd_new _ _ _ _ _ _ _ _ _ _ HT)|exact HI]|].
    intros n x y a h [Hc Hy] Hn Ha Hh. destruct (sd_step _ _ _ _ _ _ _ _ _ _ HT n x y a h Hc Hn Ha Hh) as (x' & y' & lx & ly & U1 & U2 & U3 & U4 & U5).
    destruct (HS y a h 1 Hy Ha Hh eq_refl) as (y2 & l2 & V1 & _ & V3). rewrite U2 in V1. injection V1 as <- <-.
    exists x', y', lx, ly. repeat split; try assumption; apply U4.
  Qed.
  Lemma steady_okh (okh' : list Z -> Prop) : (forall h, okh' h -> okh h) -> steady M1 M2 f1 f2 A okh' N eps L close.
  Proof. intros H. split; [exact (sd_new _ _ _ _ _ _ _ _ _ _ HT)|]. intros n x y a h Hc Hn Ha Hh. exact (sd_step _ _ _ _ _ _ _ _ _ _ HT n x y a h Hc Hn Ha (H h Hh)). Qed.

  Lemma steady_tracks : 0 <= L -> tracks M1 M2 f1 f2 (fun a h => In a A /\ okh h) N eps L 0 (fun n x y b => close n x y /\ - (INR n * L) <= b <= 0).
  Proof.
    intros HL. split.
    - split; [exact (sd_new _ _ _ _ _ _ _ _ _ _ HT)|cbn; lra].
    - intros n x y b [_ H] _. lra.
    - intros n x y b a h [Hc Hb] Hn [Ha Hh]. destruct (sd_step _ _ _ _ _ _ _ _ _ _ HT n x y a h Hc Hn Ha Hh) as (x' & y' & lx & ly & U1 & U2 & U3 & U4 & U5).
      exists x', y', lx, ly. split; [exact U1|]. split; [exact U2|]. split; [exact U3|]. split; [exact U5|]. rewrite S_INR. lra.
  Qed.

  (** predictions *)
  Lemma steady_run : forall evs n x y, close n x y -> (n + length evs <= N)%nat -> Forall (ok_event A okh (eq 1)) evs ->
    exists x' y' lx ly, run M1 x evs = Ok (x', lx) /\ run M2 y evs = Ok (y', ly) /\ close (n + length evs)%nat x' y'.
  Proof.
    induction evs as [|[a h w] evs IH]; intros n x y Hc Hn Hev; cbn [length run ev_sym ev_hist ev_wt] in *.
    - exists x, y, 0, 0. rewrite Nat.add_0_r. auto.
    - inversion Hev as [|? ? [Ha [Hh Hw]] Hev']; subst. cbn [ev_sym ev_hist ev_wt] in *. subst w.
      destruct (sd_step _ _ _ _ _ _ _ _ _ _ HT n x y a h Hc ltac:(lia) Ha Hh) as (x' & y' & lx & ly & U1 & U2 & U3 & U4 & U5).
      destruct (IH (S n) x' y' U5 ltac:(lia) Hev') as (x2 & y2 & l1 & l2 & R1 & R2 & R3).
      rewrite U1, U2. cbn [bind]. rewrite R1, R2. cbn [bind]. eexists _, _, _, _. split; [reflexivity|]. split; [reflexivity|].
      replace (n + S (length evs))%nat with (S n + length evs)%nat by lia. exact R3.
  Qed.
  Lemma steady_predict : agrees M1 -> agrees M2 -> forall evs a h, (length evs < N)%nat -> Forall (ok_event A okh (eq 1)) evs -> In a A -> okh h ->
    exists x y lx ly p q, run M1 f1 evs = Ok (x, lx) /\ run M2 f2 evs = Ok (y, ly) /\ m_logp M1 x a h = Ok p /\ m_logp M2 y a h = Ok q /\ Rabs (p - q) <= eps.
  Proof.
    intros A1 A2 evs a h Hl Hev Ha Hh.
    destruct (steady_run evs 0 f1 f2 (sd_new _ _ _ _ _ _ _ _ _ _ HT) ltac:(lia) Hev) as (x & y & lx & ly & R1 & R2 & R3).
    destruct (sd_step _ _ _ _ _ _ _ _ _ _ HT _ x y a h R3 ltac:(lia) Ha Hh) as (x' & y' & p & q & U1 & U2 & U3 & _).
    exists x, y, lx, ly, p, q. split; [exact R1|]. split; [exact R2|].
    split; [rewrite <- (A1 x a h 1), U1; reflexivity|]. split; [rewrite <- (A2 y a h 1), U2; reflexivity|exact U3].
  Qed.
End steady.

Section total.
  Context (F : floats) (u big : R) (max : nat).
  Hypothesis HF : accurate F u big max.
  Hypothesis Hu : 0 <= u <= / 64.

  (** the total of any model that follows an exact one *)
  Lemma steady_total {S1 S2} (M1 : model S1) (M2 : model S2) f1 f2 A okh eps L close seq h : let n := length seq in
    steady M1 M2 f1 f2 A okh n eps L close -> 0 <= L -> 0 <= eps -> seq <> [] -> INR n * L + 2 <= big -> INR n * (eps + u * (INR n * L + 2)) <= 1 ->
    Forall (ok_event A okh (eq 1)) (events_from h seq 1) ->
    exists x y r r', fp_update_seq F M1 f1 seq h 1 = Ok (x, h, r') /\ update_seq M2 f2 seq h 1 = Ok (y, h, r) /\
      Rabs (r' - r) <= INR n * (eps + u * (INR n * L + 2)).
  Proof.
    intros n HT HL Heps Hne Hb Hs Hev. set (B := INR n * L + 2) in *.
    assert (Bp : 2 <= B) by (unfold B; pose proof (pos_INR n); nra).
    assert (H : forall sq i x y g rx ry, close i x y -> (i + length sq = n)%nat -> Forall (ok_event A okh (eq 1)) (events_from g sq 1) ->
      Rabs (rx - ry) <= INR i * (eps + u * B) -> - (INR i * L) <= ry <= 0 ->
      exists x' y' rx' ry', fp_update_seq_loop F M1 x sq g 1 rx = Ok (x', g ++ sq, rx') /\ update_seq_loop M2 y sq g 1 ry = Ok (y', g ++ sq, ry') /\
        Rabs (rx' - ry') <= INR n * (eps + u * B)).
    { induction sq as [|a sq IH]; intros i x y g rx ry Hc Hi Hv Hd Hr; cbn [length fp_update_seq_loop update_seq_loop events_from] in *.
      - exists x, y, rx, ry. rewrite app_nil_r. replace i with n in Hd by lia. auto.
      - inversion Hv as [|? ? [Ha [Hh _]] Hv']; subst. cbn [ev_sym ev_hist] in *.
        destruct (sd_step _ _ _ _ _ _ _ _ _ _ HT i x y a g Hc ltac:(lia) Ha Hh) as (x' & y' & lx & ly & U1 & U2 & U3 & U4 & U5).
        rewrite U1, U2. cbn [bind]. assert (Hi1 : INR i + 1 <= INR n) by (rewrite <- S_INR; apply le_INR; lia). pose proof (pos_INR i).
        assert (HmL : (INR i + 1) * L <= B - 2) by (unfold B; nra).
        assert (Eu : 0 <= u * B) by (apply Rmult_le_pos; lra).
        assert (E1 : (INR i + 1) * (eps + u * B) <= 1) by (eapply Rle_trans; [|exact Hs]; apply Rmult_le_compat_r; lra).
        apply abs_le in Hd, U3.
        assert (Ha1 : Rabs (f_add F rx lx - (rx + lx)) <= u * B) by (apply (add_err F u big max HF Hu); [apply Rabs_le; lra|lra]).
        apply abs_le in Ha1.
        destruct (IH (S i) x' y' (g ++ [a]) (f_add F rx lx) (ry + ly) U5 ltac:(lia) Hv') as (x2 & y2 & r1 & r2 & E2 & E3 & E4).
        + rewrite S_INR. apply Rabs_le. lra.
        + rewrite S_INR. lra.
        + exists x2, y2, r1, r2. rewrite <- app_assoc in E2, E3. cbn [app] in E2, E3. auto. }
    destruct (H seq 0%nat f1 f2 h 0 0 (sd_new _ _ _ _ _ _ _ _ _ _ HT) eq_refl Hev) as (x & y & r' & r & E1 & E2 & E3).
    - cbn. rewrite Rminus_0_r, Rabs_R0. lra.
    - cbn. lra.
    - exists x, y, r, r'. unfold fp_update_seq, update_seq. rewrite E1, E2. cbn [bind]. rewrite !clear_suffix by exact Hne. auto.
  Qed.

  Lemma alpha_events A K seq : forall h, incl seq A -> incl seq K -> incl h K ->
    Forall (ok_event A (okctx any_hist K) (eq 1)) (events_from h seq 1).
  Proof.
    induction seq as [|a seq IH]; intros h Hs Hk Hh; cbn [events_from]; constructor.
    - split; [exact (Hs a (or_introl eq_refl))|]. split; [split; [exact I|exact Hh]|reflexivity].
    - apply IH; [exact (fun z Hz => Hs z (or_intror Hz))|exact (fun z Hz => Hk z (or_intror Hz))|].
      intros z Hz. apply in_app_or in Hz as [Hz|[<- | []]]; [exact (Hh z Hz)|exact (Hk a (or_introl eq_refl))].
  Qed.
  Lemma any_events A seq : forall h, incl seq A -> Forall (ok_event A any_hist (eq 1)) (events_from h seq 1).
  Proof.
    induction seq as [|a seq IH]; intros h Hs; cbn [events_from]; constructor.
    - split; [exact (Hs a (or_introl eq_refl))|]. split; [exact I|reflexivity].
    - apply IH. exact (fun z Hz => Hs z (or_intror Hz)).
  Qed.

  (** CTW over any base *)
  Theorem ctw_any {S1 S2} (M1 : model S1) (M2 : model S2) f1 f2 A okh eps L close binary K D seq h : let n := length seq in
    steady M1 M2 f1 f2 A okh n eps L close -> 0 <= L -> 0 <= eps -> seq <> [] ->
    In 0%Z K -> (binary = true -> incl K [0; 1]%Z) -> (0 < D)%nat -> ctw_room n L <= big -> INR n * ctw_drift u n D L eps <= 1 ->
    Forall (ok_event A (okctx okh K) (eq 1)) (events_from h seq 1) ->
    exists x y r r', fp_update_seq F (FCTW_model F M1 f1 binary) (ctw_init f1 (Z.of_nat D)) seq h 1 = Ok (x, h, r') /\
      update_seq (CTW_model M2 f2 binary) (ctw_init f2 (Z.of_nat D)) seq h 1 = Ok (y, h, r) /\
      Rabs (r' - r) <= INR n * ctw_drift u n (S D) L eps.
  Proof.
    intros n HT HL Heps Hne HK HB HD Hb Hs Hev. assert (Hn : (0 < n)%nat) by (unfold n; destruct seq; [congruence|cbn; lia]).
    exact (total F u big max HF Hu M1 M2 f1 f2 A okh n eps L close HT Hn HL Heps binary K D HK HB HD Hb Hs seq h eq_refl Hev).
  Qed.

  Section kt.
    Context (tiny : R).
    Hypothesis HQ : divides F u tiny.
    Variable A : list Z.
    Hypothesis HA : NoDup A.
    Hypothesis Hne : A <> [].
    Let k := length A.

    Theorem kt_seq seq h : let n := length seq in incl seq A -> seq <> [] ->
      32 * (INR n + INR k) * u <= 1 -> tiny <= / (2 * INR k * INR n) -> 2 * INR n + 4 <= big ->
      INR n * kt_worst k n + 2 <= big -> let loss := INR n * (kt_off u k n + u * (INR n * kt_worst k n + 2)) in loss <= 1 ->
      exists f1 x y r r', fkt_init F A = Ok f1 /\ fp_update_seq F (FKT_model F) f1 seq h 1 = Ok (x, h, r') /\
        update_seq KT_model (kt_init A) seq h 1 = Ok (y, h, r) /\ Rabs (r' - r) <= loss.
    Proof.
      intros n Hs Hsn H1 H2 H3 H4 loss H5. assert (Hn : (0 < n)%nat) by (unfold n; destruct seq; [congruence|cbn; lia]).
      destruct (kt_steady F u big tiny max HF HQ Hu A n HA Hne Hn H1 H2 H3) as (f1 & Hf & HT).
      destruct (steady_total (FKT_model F) KT_model f1 (kt_init A) A any_hist (kt_off u k n) (kt_worst k n) _ seq h HT
        (L_pos u tiny A n HA Hne Hn H1 H2) (off_pos u tiny Hu A n HA Hne Hn H1 H2) Hsn H4 H5 (any_events A seq h Hs)) as (x & y & r & r' & E).
      exists f1, x, y, r, r'. split; [exact Hf|exact E].
    Qed.

    Variables (K : list Z) (D : nat).
    Hypothesis HN : NoDup K.
    Hypothesis HK : In 0%Z K.
    Hypothesis HD : (0 < D)%nat.
    Variables (seq h : list Z).
    Hypothesis Hs : incl seq A.
    Hypothesis Hsk : incl seq K.
    Hypothesis Hh : incl h K.
    Hypothesis Hsn : seq <> [].
    Let n := length seq.

    Theorem ctw_kt_seq : roomy u big tiny k D n ->
      exists f1 x y r r', fkt_init F A = Ok f1 /\
        fp_update_seq F (FCTW_model F (FKT_model F) f1 false) (ctw_init f1 (Z.of_nat D)) seq h 1 = Ok (x, h, r') /\
        update_seq (CTW_model KT_model (kt_init A) false) (ctw_init (kt_init A) (Z.of_nat D)) seq h 1 = Ok (y, h, r) /\
        Rabs (r' - r) <= INR n * ctw_drift u n (S D) (kt_worst k n) (kt_off u k n).
    Proof.
      intros (H1 & H2 & H3 & H4 & H5). assert (Hn : (0 < n)%nat) by (unfold n; destruct seq; [congruence|cbn; lia]).
      destruct (kt_steady F u big tiny max HF HQ Hu A n HA Hne Hn H1 H2 H3) as (f1 & Hf & HT).
      destruct (ctw_any (FKT_model F) KT_model f1 (kt_init A) A any_hist (kt_off u k n) (kt_worst k n) _ false K D seq h HT
        (L_pos u tiny A n HA Hne Hn H1 H2) (off_pos u tiny Hu A n HA Hne Hn H1 H2) Hsn HK ltac:(discriminate) HD H4 H5 (alpha_events A K seq h Hs Hsk Hh)) as (x & y & r & r' & E).
      exists f1, x, y, r, r'. split; [exact Hf|exact E].
    Qed.

    (** CTW over KT follows the exact one for N updates *)
    Lemma ctw_kt_steady N : (0 < N)%nat -> roomy u big tiny k D N -> exists f1 close, fkt_init F A = Ok f1 /\
      steady (FCTW_model F (FKT_model F) f1 false) (CTW_model KT_model (kt_init A) false) (ctw_init f1 (Z.of_nat D)) (ctw_init (kt_init A) (Z.of_nat D))
        A (okctx any_hist K) N (ctw_off u N D (kt_worst k N) (kt_off u k N)) (kt_worst k N) close /\
      exists Inv, steps (CTW_model KT_model (kt_init A) false) A (okctx any_hist K) (eq 1) Inv /\ forall i x y, close i x y -> Inv y.
    Proof.
      intros Hn (H1 & H2 & H3 & H4 & H5).
      destruct (kt_steady F u big tiny max HF HQ Hu A N HA Hne Hn H1 H2 H3) as (f1 & Hf & HT).
      pose proof (ctw_steady F u big max HF Hu (FKT_model F) KT_model f1 (kt_init A) A any_hist N (kt_off u k N) (kt_worst k N) _ HT Hn
        (L_pos u tiny A N HA Hne Hn H1 H2) (off_pos u tiny Hu A N HA Hne Hn H1 H2) false K D HK ltac:(discriminate) HD H4 H5) as HC.
      pose proof (steps_one _ _ _ (okctx any_hist K) nonneg _ (fun h H => H) Rle_0_1 (ctw_steps KT_model (kt_init A) false A any_hist nonneg (kt_inv A) K D
        (law_step _ _ _ _ _ (kt_lawful A)) (kt_inv_init A HA Hne) HN HK ltac:(discriminate) HD)) as HS.
      exists f1. eexists. split; [exact Hf|]. split.
      - exact (steady_inv _ _ _ _ _ _ _ _ _ _ HC _ HS (ctw_inv_init KT_model (kt_init A) A any_hist nonneg K D)).
      - eexists. split; [exact HS|]. intros i x y [_ H]. exact H.
    Qed.

    Lemma off_nonneg N : (0 < N)%nat -> roomy u big tiny k D N -> 0 <= ctw_off u N D (kt_worst k N) (kt_off u k N).
    Proof.
      intros Hn (H1 & H2 & _). pose proof (L_pos u tiny A N HA Hne Hn H1 H2) as G1. pose proof (off_pos u tiny Hu A N HA Hne Hn H1 H2) as G2. fold k in G1, G2. pose proof (pos_INR N).
      unfold ctw_off, ctw_drift, ctw_room. apply Rmult_le_pos; [lra|].
      assert (0 <= INR N * kt_worst k N) by (apply Rmult_le_pos; lra).
      assert (0 <= u * (4 * (INR N * kt_worst k N + 2) + 22)) by (apply Rmult_le_pos; lra).
      assert (0 <= INR (S (S D)) * (u * (4 * (INR N * kt_worst k N + 2) + 22))) by (apply Rmult_le_pos; [apply pos_INR|assumption]). lra.
    Qed.

    Theorem ctw_kt_predict a : roomy u big tiny k D (S n) -> In a A ->
      exists f1 x y lx ly p q, fkt_init F A = Ok f1 /\
        run (FCTW_model F (FKT_model F) f1 false) (ctw_init f1 (Z.of_nat D)) (events_from h seq 1) = Ok (x, lx) /\
        run (CTW_model KT_model (kt_init A) false) (ctw_init (kt_init A) (Z.of_nat D)) (events_from h seq 1) = Ok (y, ly) /\
        m_logp (FCTW_model F (FKT_model F) f1 false) x a (h ++ seq) = Ok p /\
        m_logp (CTW_model KT_model (kt_init A) false) y a (h ++ seq) = Ok q /\
        Rabs (p - q) <= ctw_off u (S n) D (kt_worst k (S n)) (kt_off u k (S n)).
    Proof.
      intros HR Ha. destruct (ctw_kt_steady (S n) ltac:(lia) HR) as (f1 & close & Hf & HT & _).
      destruct (steady_predict _ _ _ _ _ _ _ _ _ _ HT (ctw_agrees F (FKT_model F) f1 false (FloatsKTAny.kt_agrees F))
        (AgreeFacts.ctw_agrees KT_model (kt_init A) false AgreeFacts.kt_agrees) (events_from h seq 1) a (h ++ seq)) as (x & y & lx & ly & p & q & E).
      - rewrite events_len. unfold n. lia.
      - exact (alpha_events A K seq h Hs Hsk Hh).
      - exact Ha.
      - split; [exact I|]. intros z Hz. apply in_app_or in Hz as [Hz|Hz]; auto.
      - exists f1, x, y, lx, ly, p, q. split; [exact Hf|exact E].
    Qed.

    Theorem ctw_kt_ptw m : roomy u big tiny k D n -> let L := kt_worst k n in let eps := ctw_off u n D L (kt_off u k n) in
      2 * ptw_size n L 0 + 6 <= big -> 25 * (INR n * ptw_loss u n L 0 eps) <= 1 ->
      exists f1 x y r r', fkt_init F A = Ok f1 /\
        let c1 := ctw_init f1 (Z.of_nat D) in let c2 := ctw_init (kt_init A) (Z.of_nat D) in
        fp_update_seq F (FPTW_model F (FCTW_model F (FKT_model F) f1 false) m c1) (ptw_init m c1) seq h 1 = Ok (x, h, r') /\
        update_seq (PTW_model (CTW_model KT_model (kt_init A) false) m c2) (ptw_init m c2) seq h 1 = Ok (y, h, r) /\
        Rabs (r' - r) <= 23 * (INR n * ptw_loss u n L 0 eps).
    Proof.
      intros HR L eps Hb Hsm. assert (Hn : (0 < n)%nat) by (unfold n; destruct seq; [congruence|cbn; lia]).
      destruct (ctw_kt_steady n Hn HR) as (f1 & close & Hf & HT & _). pose proof (L_pos u tiny A n HA Hne Hn (proj1 HR) (proj1 (proj2 HR))) as HL.
      assert (Hrun : forall sq g, incl sq A -> incl sq K -> incl g K -> ok_run (fun a h => In a A /\ okctx any_hist K h) g sq).
      { induction sq as [|a sq IH]; intros g I1 I2 I3; cbn [ok_run]; [exact I|]. split; [split; [exact (I1 a (or_introl eq_refl))|split; [exact I|exact I3]]|].
        apply IH; [exact (fun z Hz => I1 z (or_intror Hz))|exact (fun z Hz => I2 z (or_intror Hz))|].
        intros z Hz. apply in_app_or in Hz as [Hz|[<- | []]]; [exact (I3 z Hz)|exact (I2 a (or_introl eq_refl))]. }
      destruct (ptw_any F u big max m HF Hu _ _ _ _ _ eps L 0 _ seq h (steady_tracks _ _ _ _ _ _ _ _ _ _ HT HL) HL (Rle_refl _)
        (off_nonneg n Hn HR) (Hrun seq h Hs Hsk Hh) Hsn Hb Hsm) as (x & y & r & r' & E).
      exists f1, x, y, r, r'. split; [exact Hf|exact E].
    Qed.

    Theorem ctw_kt_fmn m : roomy u big tiny k D (2 * n) -> let L := kt_worst k (2 * n) in let eps := ctw_off u (2 * n) D L (kt_off u k (2 * n)) in
      let d := (Nat.log2 (n + 1) + 1)%nat in fmn_room u big max n d L eps ->
      exists f1, fkt_init F A = Ok f1 /\
        fcompetes F (FCTW_model F (FKT_model F) f1 false) (LogStore_class _) m (ctw_init f1 (Z.of_nat D)) h seq (INR n * (23 * fmn_loss u n d L eps + eps)).
    Proof.
      intros HR L eps d Hroom. assert (Hn : (0 < 2 * n)%nat) by (unfold n; destruct seq; [congruence|cbn; lia]).
      destruct (ctw_kt_steady (2 * n) Hn HR) as (f1 & close & Hf & HT & Inv & HS & HI). exists f1. split; [exact Hf|].
      exact (fmn_any F u big max HF Hu _ _ (LogStore_class _) _ _ _ A _ Inv eps L close m d seq h (logstore_law _) HT HS HI
        (fun xs t => log_store_size xs t n) Hsn (L_pos u tiny A _ HA Hne Hn (proj1 HR) (proj1 (proj2 HR))) (off_nonneg _ Hn HR) Hroom (alpha_events A K seq h Hs Hsk Hh)).
    Qed.
  End kt.
End total.

Lemma chopped_divides p tiny : divides (chopped p) (powerRZ 2 (- p)) tiny.
Proof.
  intros x y Hx Hy _. cbn [chopped f_div]. pose proof (chop_rel p (x / y)) as H.
  rewrite (Rabs_right (x / y)) in H; [exact H|]. apply Rle_ge, Rlt_le, Rdiv_lt_0_compat; assumption.
Qed.

(** three symbols, seven of them, depth 8, 52 digits *)
Lemma any_example : let u := powerRZ 2 (-52) in let big := 10000 in let tiny := / 1000 in let max := Z.to_nat (2 ^ 52) in
  let n := 7%nat in let L := kt_worst 3 n in let eps := ctw_off u n 8 L (kt_off u 3 n) in
  let d := (Nat.log2 (n + 1) + 1)%nat in let L2 := kt_worst 3 (2 * n) in let eps2 := ctw_off u (2 * n) 8 L2 (kt_off u 3 (2 * n)) in
  accurate (chopped 52) u big max /\ 0 <= u <= / 64 /\ divides (chopped 52) u tiny /\
  INR n * L + 2 <= big /\ INR n * (kt_off u 3 n + u * (INR n * L + 2)) <= / 1000000000 /\
  roomy u big tiny 3 8 n /\ INR n * ctw_drift u n 9 L (kt_off u 3 n) <= / 1000000000 /\
  2 * ptw_size n L 0 + 6 <= big /\ 25 * (INR n * ptw_loss u n L 0 eps) <= / 1000000 /\
  roomy u big tiny 3 8 (2 * n) /\ fmn_room u big max n d L2 eps2 /\ INR n * (23 * fmn_loss u n d L2 eps2 + eps2) <= / 1000000.
Proof.
  cbv zeta. destruct ptw_example as (_ & H2 & _). pose proof (chopped_accurate 52 10000 ltac:(lia)) as H1. set (u := powerRZ 2 (-52)) in *.
  assert (Hu : u = / IZR (2 ^ 52)).
  { unfold u. replace (-52)%Z with (- (52))%Z by reflexivity. rewrite <- pow2_Z by lia.
    apply Rmult_eq_reg_r with (powerRZ 2 52); [|apply Rgt_not_eq, pow2_pos].
    rewrite <- pow2_add, Rinv_l by (apply Rgt_not_eq, pow2_pos). reflexivity. }
  change (2 ^ 52)%Z with 4503599627370496%Z in Hu.
  change (Nat.log2 (7 + 1) + 1)%nat with 4%nat. change (2 * 7)%nat with 14%nat.
  assert (I14 : INR 14 = 14) by (cbn [INR]; lra). assert (I7 : INR 7 = 7) by (cbn [INR]; lra). assert (I3 : INR 3 = 3) by (cbn [INR]; lra).
  assert (I4 : INR 4 = 4) by (cbn [INR]; lra). assert (I9 : INR 9 = 9) by (cbn [INR]; lra). assert (I10 : INR 10 = 10) by (cbn [INR]; lra).
  assert (HL : 0 <= kt_worst 3 7 <= 20).
  { unfold kt_worst. rewrite I3, I7. replace (3 * 7) with 21 by lra. split; [rewrite <- ln_1; apply ln_le; lra|].
    pose proof (exp_ineq1_le (ln 21)) as E2. rewrite exp_ln in E2 by lra. lra. }
  assert (HL2 : 0 <= kt_worst 3 14 <= 41).
  { unfold kt_worst. rewrite I3, I14. replace (3 * 14) with 42 by lra. split; [rewrite <- ln_1; apply ln_le; lra|].
    pose proof (exp_ineq1_le (ln 42)) as E2. rewrite exp_ln in E2 by lra. lra. }
  assert (H4l : 0 <= ln (INR 4) <= 3).
  { rewrite I4. split; [rewrite <- ln_1; apply ln_le; lra|].
    pose proof (exp_ineq1_le (ln 4)) as E2. rewrite exp_ln in E2 by lra. lra. }
  assert (O1 : 0 <= kt_off u 3 7 <= 200 * u) by (unfold kt_off; rewrite I3, I7; rewrite Hu in *; lra).
  assert (O2 : 0 <= kt_off u 3 14 <= 400 * u) by (unfold kt_off; rewrite I3, I14; rewrite Hu in *; lra).
  assert (D1 : 0 <= ctw_drift u 7 8 (kt_worst 3 7) (kt_off u 3 7) <= 10000 * u) by (unfold ctw_drift, ctw_room; rewrite I9, I7; rewrite Hu in *; lra).
  assert (D2 : 0 <= ctw_drift u 7 9 (kt_worst 3 7) (kt_off u 3 7) <= 10000 * u) by (unfold ctw_drift, ctw_room; rewrite I10, I7; rewrite Hu in *; lra).
  assert (D3 : 0 <= ctw_drift u 14 8 (kt_worst 3 14) (kt_off u 3 14) <= 30000 * u) by (unfold ctw_drift, ctw_room; rewrite I9, I14; rewrite Hu in *; lra).
  assert (D4 : 0 <= ctw_drift u 14 9 (kt_worst 3 14) (kt_off u 3 14) <= 30000 * u) by (unfold ctw_drift, ctw_room; rewrite I10, I14; rewrite Hu in *; lra).
  assert (F1 : 0 <= ctw_off u 7 8 (kt_worst 3 7) (kt_off u 3 7) <= 1000000 * u) by (unfold ctw_off; rewrite I7; rewrite Hu in *; lra).
  assert (F2 : 0 <= ctw_off u 14 8 (kt_worst 3 14) (kt_off u 3 14) <= 1000000 * u) by (unfold ctw_off; rewrite I14; rewrite Hu in *; lra).
  split; [exact H1|]. split; [exact H2|]. split; [exact (chopped_divides 52 _)|].
  split; [rewrite I7; lra|]. split; [rewrite I7; rewrite Hu in *; lra|].
  split; [unfold roomy; rewrite I7, I3; repeat split; [rewrite Hu; lra|lra|lra|unfold ctw_room; rewrite I7; lra|rewrite Hu in *; lra]|].
  split; [rewrite I7; rewrite Hu in *; lra|]. split; [unfold ptw_size; rewrite I7; lra|].
  split; [unfold ptw_loss, ptw_size; set (e := ctw_off _ _ _ _ _) in *; rewrite I7; rewrite Hu in *; lra|].
  split; [unfold roomy; rewrite I14, I3; repeat split; [rewrite Hu; lra|lra|lra|unfold ctw_room; rewrite I14; lra|rewrite Hu in *; lra]|].
  set (eps := ctw_off _ 14 _ _ _) in *. set (L := kt_worst 3 14) in *.
  assert (A1 : 0 <= avg_size 7 4 L 0 <= 310) by (unfold avg_size; set (l := ln (INR 4)) in *; cbn [INR]; lra).
  assert (A2 : 0 <= avg_drift u 7 4 L 0 eps <= 7 * eps + 3000 * u) by (unfold avg_drift; set (A := avg_size _ _ _ _) in *; cbn [INR]; rewrite Hu in *; lra).
  assert (A3 : 0 <= fmn_loss u 7 4 L eps <= 14 * eps + 12000 * u).
  { unfold fmn_loss, ptw_loss, avg_eps, ptw_size. set (A := avg_size _ _ _ _) in *. set (dr := avg_drift _ _ _ _ _ _) in *. cbn [INR]. rewrite Hu in *. lra. }
  split; [|set (fl := fmn_loss _ _ _ _ _) in *; cbn [INR]; rewrite Hu in *; lra].
  split; [lia|]. split; [set (A := avg_size _ _ _ _) in *; cbn [INR]; lra|]. split; [rewrite Hu in *; lra|].
  split; [unfold ptw_size; cbn [INR]; lra|]. set (fl := fmn_loss _ _ _ _ _) in *; cbn [INR]; rewrite Hu in *; lra.
Qed.
