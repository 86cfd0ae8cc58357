(** Models computed with rounding against sources that change. *)
From Coq Require Import Lra Lia.
From Verif Require Import Spec.CombinedSpec Spec.FloatsNestSpec Spec.ACSpec Spec.KTSpec Spec.SourceSpec Spec.PTWSpec Proofs.SourceProps Proofs.SourceFacts.
From Verif Require Import Proofs.RealFacts Proofs.PyFacts Proofs.ProbFacts Proofs.KTFacts Proofs.KTBinFacts Proofs.KTRedundancy Proofs.AveragerFacts Proofs.PTWFacts Proofs.PTWTop Proofs.PTWMixture Proofs.PTWNorm Proofs.PTWProps Proofs.SeqFacts Proofs.PomdpCTW.
From Verif Require Import Proofs.CTWTop Proofs.CTWProps Proofs.CTWMixture Proofs.CTWKTFacts Proofs.FMNFacts Proofs.FMNProps Proofs.StoreFacts Proofs.CombinedFacts Proofs.CombinedTop Proofs.FloatsFacts Proofs.FloatsPTW Proofs.FloatsFMNFacts Proofs.FloatsFMNTop Proofs.FloatsFMNKT Proofs.FloatsAnyTop Proofs.FloatsChop Proofs.FloatsFMNDrift.
Open Scope R_scope.

Lemma first_retained {S} F (M : model S) m fresh s0 evs s l : let C := LogStore_class S in
  ffmn_init F C m fresh = Ok s0 -> run (FFMN_model F M C m) s0 evs = Ok (s, l) ->
  In fresh (st_iter C (fm_models s)) /\ (1 <= length (st_iter C (fm_models s)) <= Nat.log2 (length evs + 1) + 1)%nat.
Proof.
  intros C H0 Hr. unfold ffmn_init in H0. destruct (st_lazy_add C (st_empty C) fresh) as [t|] eqn:Et; [|discriminate]. cbn [bind] in H0.
  destruct (ffmn_factory F C t) as [a|]; [|discriminate]. cbn [bind] in H0. injection H0 as <-.
  destruct (ffmn_adds F M C m fresh evs (FMN t (ptw_init m a) 0) [] s l) as (ys & Hy & Hl); [cbn [st_adds fm_models]; rewrite Et; reflexivity|exact Hr|].
  cbn [length] in Hl.
  assert (Hin : In fresh (st_iter C (fm_models s))).
  { unfold C in *. rewrite ls_adds in Hy. injection Hy as Hy. rewrite <- Hy. cbn [st_iter LogStore_class st_empty].
    pose proof (logstore_items (fresh :: ys) ltac:(discriminate)) as Hit.
    apply (f_equal (fun l => nth_error l (Nat.log2 (length (fresh :: ys))))) in Hit. rewrite nth_error_map_Some in Hit.
    rewrite nth_error_map, (nth_error_nth' _ 0%nat) in Hit by (rewrite seq_length; lia).
    rewrite seq_nth in Hit by lia. cbn [option_map] in Hit. rewrite Nat.add_0_l, kept_oldest in Hit by (cbn [length]; lia).
    cbn [nth_error] in Hit. destruct (nth_error (ls_iter _) _) as [y|] eqn:Ey; cbn in Hit; [|discriminate]. injection Hit as ->.
    exact (nth_error_In _ _ Ey). }
  split; [exact Hin|]. split.
  - destruct (st_iter C (fm_models s)); [destruct Hin|cbn [length]; lia].
  - apply (log_store_size _ _ _ Hy). cbn [length]. lia.
Qed.

Lemma ok_events_run A okh seq : forall h, Forall (ok_event A okh (eq 1)) (events_from h seq 1) -> ok_run (fun a h => In a A /\ okh h) h seq.
Proof.
  induction seq as [|a seq IH]; intros h H; cbn [events_from ok_run] in *; [exact I|].
  inversion H as [|? ? (H1 & H2 & _) H3]; subst. split; [split; [exact H1|exact H2]|apply IH, H3].
Qed.

Section learner.
  Context (F : floats) (u big : R) (max : nat).
  Hypothesis HF : accurate F u big max.
  Hypothesis Hu : 0 <= u <= / 64.
  Context {S1 S2 : Type} (M1 : model S1) (M2 : model S2) (f1 : S1) (f2 : S2) (A : list Z) (okh : list Z -> Prop) (Inv : S2 -> Prop).
  Hypothesis HS : steps M2 A okh (eq 1) Inv.
  Hypothesis Hf2 : Inv f2.
  Context (src : (event -> R) -> Prop) (price : nat -> R) (ok : event -> Prop).
  Hypothesis Hok : forall e, ok e -> ok_event A okh (eq 1) e.
  Hypothesis Hlearn : learns M2 f2 ok src price.
  Hypothesis Hmono : forall a b, (a <= b)%nat -> price a <= price b.
  Hypothesis Hprice : forall n, 0 <= price n.
  Variables (seq h : list Z).
  Let n := length seq.
  Let evs := events_from h seq 1.
  Hypothesis Hev : Forall ok evs.
  Hypothesis Hne : seq <> [].

  Lemma evs_ok : Forall (ok_event A okh (eq 1)) evs.
  Proof. eapply Forall_impl; [|exact Hev]. exact Hok. Qed.
  Lemma evs_len : length evs = n.
  Proof. apply events_len. Qed.

  (** a source that stays *)
  Theorem learn_total eps L close r : steady M1 M2 f1 f2 A okh n eps L close -> 0 <= L -> 0 <= eps ->
    INR n * L + 2 <= big -> let loss := INR n * (eps + u * (INR n * L + 2)) in loss <= 1 -> src r -> 0 < Rprod (map r evs) ->
    exists x v, fp_update_seq F M1 f1 seq h 1 = Ok (x, h, v) /\ - v <= - ln (Rprod (map r evs)) + price n + loss.
  Proof.
    intros HT HL He Hb loss Hl Hr Hpos.
    destruct (steady_total F u big max HF Hu M1 M2 f1 f2 A okh eps L close seq h HT HL He Hne Hb Hl evs_ok) as (x & y & v & v' & E1 & E2 & E3).
    exists x, v'. split; [exact E1|]. rewrite update_seq_spec in E2 by exact Hne. fold evs in E2.
    destruct (run M2 f2 evs) as [[y' l]|] eqn:E; [|discriminate]. cbn [bind] in E2. injection E2 as <- <-.
    pose proof (Hlearn r evs Hr Hev Hpos) as H. rewrite (seq_prob_run _ _ _ _ _ E), ln_exp, evs_len in H. apply abs_le in E3. fold n in E3. unfold loss. lra.
  Qed.

  (** a source that changes *)
  Variable q : nat -> event -> R.
  Hypothesis Hq : forall t e, 0 <= q t e.
  Hypothesis Hsrc : forall t, src (q t).
  Variable cps : list nat.
  Hypothesis Hch : changes_only q cps.
  Variable m : nat.
  Hypothesis Hcps : Forall (fun c => c mod 2 ^ m = 0)%nat cps.
  Hypothesis Hpos : 0 < source_prob q 0 evs.
  Let d := levels m n.
  Let k := length cps.

  Theorem fptw_tracks eps L close : steady M1 M2 f1 f2 A okh n eps L close -> 0 <= L -> 0 <= eps ->
    2 * ptw_size n L 0 + 6 <= big -> 25 * (INR n * ptw_loss u n L 0 eps) <= 1 ->
    exists x v, fp_update_seq F (FPTW_model F M1 m f1) (ptw_init m f1) seq h 1 = Ok (x, h, v) /\
      - v <= - ln (source_prob q 0 evs) + INR (1 + k * d) * price n + INR (1 + 2 * k * d) * ln 2 + INR (pred d) * ln (3 / 2)
             + 23 * (INR n * ptw_loss u n L 0 eps).
  Proof.
    intros HT HL He Hb Hs.
    destruct (ptw_any F u big max m HF Hu M1 M2 f1 f2 _ eps L 0 _ seq h (steady_tracks _ _ _ _ _ _ _ _ _ _ HT HL) HL (Rle_refl _) He
      (ok_events_run A okh seq h evs_ok) Hne Hb Hs) as (x & y & v & v' & E1 & E2 & E3).
    exists x, v'. split; [exact E1|]. rewrite update_seq_spec in E2 by exact Hne. fold evs in E2.
    destruct (ptw_tracks M2 A okh (eq 1) Inv HS f2 Hf2 src price ok Hok Hlearn Hmono Hprice q Hq Hsrc cps Hch m Hcps evs Hev Hpos) as (s & l & Hr & Hl).
    rewrite Hr in E2. cbn [bind] in E2. injection E2 as <- <-. rewrite evs_len in Hl. fold d k in Hl. apply abs_le in E3. fold n in E3. lra.
  Qed.

  Theorem ffmn_tracks eps L close : let C := LogStore_class S1 in let D := (Nat.log2 (n + 1) + 1)%nat in
    steady M1 M2 f1 f2 A okh (2 * n) eps L close -> 0 <= L -> 0 <= eps -> fmn_room u big max n D L eps ->
    exists s0 s v, ffmn_init F C m f1 = Ok s0 /\ fp_update_seq F (FFMN_model F M1 C m) s0 seq h 1 = Ok (s, h, v) /\
      - v <= - ln (source_prob q 0 evs) + INR (1 + k * d) * (price n + ln (INR D))
             + INR (1 + 2 * k * d) * ln 2 + INR (pred d) * ln (3 / 2) + INR n * (23 * fmn_loss u n D L eps + 2 * eps).
  Proof.
    intros C D HT HL He0 HR. pose proof evs_len as Hle. pose proof evs_ok as Hoe.
    pose proof (steady_inv M1 M2 f1 f2 A okh (2 * n) eps L close HT Inv HS Hf2) as HT'.
    pose proof (fmn_any F u big max HF Hu M1 M2 C _ f1 f2 A okh Inv eps L _ m D seq h (logstore_law S1) HT' HS (fun i x y H => proj2 H)
      (fun xs t => log_store_size xs t n) Hne HL He0 HR Hoe) as (s0 & s & r & E0 & Es & Hcomp).
    exists s0, s, r. split; [exact E0|]. split; [exact Es|]. fold evs in Hcomp.
    assert (Hrun : exists l, run (FFMN_model F M1 C m) s0 evs = Ok (s, l)).
    { unfold fp_update_seq in Es. destruct (fp_update_seq_loop _ _ _ _ _ _ _) as [[[s' h'] r']|] eqn:E in Es; [|discriminate].
      cbn [bind] in Es. injection Es as <- _ _. exact (loop_run F _ _ _ _ _ _ _ _ _ E). }
    destruct Hrun as (l & Hrun).
    assert (Hlen : (length evs <= 2 ^ (m + d))%nat) by (rewrite Hle; apply levels_le; apply le_n).
    destruct (source_partition M2 A okh (eq 1) Inv HS f2 Hf2 src price ok Hok Hlearn Hmono Hprice q Hq Hsrc cps Hch m Hcps d evs Hev Hlen Hpos) as (p & Hp & Hcost & Hsegs & Hl).
    rewrite Hle in Hl. fold k in Hcost, Hsegs, Hl.
    set (seg := fun b => match find (fun sg : nat * nat => Nat.eqb (fst sg) b) (segments m d 0 p) with Some sg => sg | None => (b, 0%nat) end).
    set (loss := fun b => match run M1 f1 (firstn (snd (seg b)) (skipn b evs)) with Ok (_, x) => - x | Err _ => 0 end).
    assert (Hseg : forall sg, In sg (segments m d 0 p) -> seg (fst sg) = sg).
    { intros sg Hi. unfold seg. destruct (find _ _) as [sg'|] eqn:E.
      - apply find_some in E as [Hi' E]. apply Nat.eqb_eq in E. exact (segments_one m p d 0 _ _ Hi' Hi E).
      - pose proof (find_none _ _ E sg Hi) as G. cbv beta in G. rewrite Nat.eqb_refl in G. discriminate. }
    set (sgs := filter (fun sg : nat * nat => (fst sg <? n)%nat) (segments m d 0 p)).
    assert (Hin : forall sg, In sg sgs -> In sg (segments m d 0 p) /\ (fst sg < n)%nat).
    { intros sg Hi. apply filter_In in Hi as [Hi Hb]. apply Nat.ltb_lt in Hb. auto. }
    assert (Hrn : forall sg, In sg (segments m d 0 p) -> exists x y lx ly,
      run M1 f1 (firstn (snd sg) (skipn (fst sg) evs)) = Ok (x, lx) /\ run M2 f2 (firstn (snd sg) (skipn (fst sg) evs)) = Ok (y, ly) /\
      Rabs (lx - ly) <= INR (Nat.min (snd sg) (n - fst sg)) * eps).
    { intros sg Hi.
      assert (El : length (firstn (snd sg) (skipn (fst sg) evs)) = Nat.min (snd sg) (n - fst sg)) by (rewrite firstn_length, skipn_length, Hle; reflexivity).
      rewrite <- El.
      apply (twin_run max M1 M2 f1 f2 A okh n 0 eps L close HT ltac:(lia) _ 0%nat).
      - exact (sd_new _ _ _ _ _ _ _ _ _ _ HT).
      - rewrite El. lia.
      - apply Forall_firstn, Forall_skipn, Hoe. }
    assert (Hret : forall sg, In sg sgs -> In f1 (fretained F M1 C m s0 evs (fst sg)) /\
      (1 <= length (fretained F M1 C m s0 evs (fst sg)) <= D)%nat).
    { intros sg Hi. apply Hin in Hi as [_ Hi]. unfold fretained. destruct (run_prefix _ (fst sg) _ _ _ _ Hrun) as (s1 & l1 & E1). rewrite E1.
      destruct (first_retained F M1 m f1 s0 _ s1 l1 E0 E1) as (H1 & H2 & H3). split; [exact H1|]. split; [exact H2|].
      etransitivity; [exact H3|]. unfold D. apply Nat.add_le_mono_r, Nat.log2_le_mono. rewrite firstn_length. lia. }
    specialize (Hcomp p (fun _ => f1) loss Hp). fold n d sgs in Hcomp.
    assert (Hhyp : forall sg, In sg sgs -> In f1 (fretained F M1 C m s0 evs (fst sg)) /\
      exists x, run M1 f1 (firstn (snd sg) (skipn (fst sg) evs)) = Ok (x, - loss (fst sg))).
    { intros sg Hi. split; [exact (proj1 (Hret sg Hi))|]. destruct (Hin sg Hi) as [Hi' _].
      destruct (Hrn sg Hi') as (x & y & lx & ly & E1 & _ & _). exists x. unfold loss. rewrite (Hseg sg Hi'), E1, Ropp_involutive. reflexivity. }
    specialize (Hcomp Hhyp).
    set (f := fun sg : nat * nat => - ln (seq_prob M2 f2 (firstn (snd sg) (skipn (fst sg) evs)))).
    set (g := fun sg : nat * nat => INR (Nat.min (snd sg) (n - fst sg))).
    assert (HD1 : 1 <= INR D) by (apply (le_INR 1); unfold D; lia).
    assert (HL0 : 0 <= ln (INR D)) by (rewrite <- ln_1; apply KTRedundancy.ln_le; lra).
    assert (Hsum : Rsum (map (fun sg => loss (fst sg) + ln (INR (length (fretained F M1 C m s0 evs (fst sg))))) sgs)
                   <= Rsum (map f sgs) + Rsum (map g sgs) * eps + INR (length sgs) * ln (INR D)).
    { replace (Rsum (map g sgs) * eps) with (eps * Rsum (map g sgs)) by ring. rewrite <- (Rsum_const (ln (INR D)) sgs), <- Rsum_scal_l, <- !Rsum_plus.
      apply Rsum_le. intros sg Hi. destruct (Hret sg Hi) as (_ & R1 & R2). destruct (Hin sg Hi) as [Hi' _].
      destruct (Hrn sg Hi') as (x & y & lx & ly & E1 & E2 & E3). unfold f, loss. rewrite (Hseg sg Hi'), E1, (seq_prob_run _ _ _ _ _ E2), ln_exp.
      apply le_INR in R1 as R1'. apply le_INR in R2. change (INR 1) with 1 in R1'.
      assert (R3 := KTRedundancy.ln_le _ _ (Rlt_le_trans _ _ _ Rlt_0_1 R1') R2). apply abs_le in E3. fold (g sg) in E3. lra. }
    assert (Hpp : Rsum (map f sgs) = - ln (part_prob M2 (fun _ => f2) m d 0 p evs)).
    { unfold sgs. rewrite Rsum_drop.
      - rewrite part_prob_segments by assumption.
        rewrite (Rprod_map_ext _ (fun sg => seq_prob M2 f2 (firstn (snd sg) (skipn (fst sg) evs)))).
        2:{ intros sg _. rewrite Nat.sub_0_r. reflexivity. }
        destruct (ln_Rprod (fun sg => seq_prob M2 f2 (firstn (snd sg) (skipn (fst sg) evs))) (segments m d 0 p)) as (_ & ->).
        + intros sg Hi. destruct (Hrn sg Hi) as (x & y & lx & ly & _ & E2 & _). rewrite (seq_prob_run _ _ _ _ _ E2). apply exp_pos.
        + unfold f. replace (- Rsum (map (fun sg => ln (seq_prob M2 f2 (firstn (snd sg) (skipn (fst sg) evs)))) (segments m d 0 p)))
            with (-1 * Rsum (map (fun sg => ln (seq_prob M2 f2 (firstn (snd sg) (skipn (fst sg) evs)))) (segments m d 0 p))) by lra.
          rewrite <- Rsum_scal_l. apply Rsum_map_ext. intros sg _. lra.
      - intros sg _ Hf. apply Nat.ltb_ge in Hf. unfold f. rewrite skipn_all2 by lia. rewrite firstn_nil. cbn [seq_prob]. rewrite ln_1. lra. }
    assert (Hg : Rsum (map g sgs) <= INR n).
    { unfold sgs. rewrite Rsum_drop.
      - unfold g. rewrite segments_total. apply le_INR. lia.
      - intros sg _ Hf. apply Nat.ltb_ge in Hf. unfold g. replace (n - fst sg)%nat with 0%nat by lia. rewrite Nat.min_0_r. reflexivity. }
    assert (Hge : Rsum (map g sgs) * eps <= INR n * eps) by (apply Rmult_le_compat_r; assumption).
    assert (Hns : INR (length sgs) <= INR (1 + k * d)).
    { apply le_INR. unfold sgs. pose proof (PTWProps.filter_length_le' (fun sg : nat * nat => (fst sg <? n)%nat) (segments m d 0 p)). lia. }
    assert (Hnl : INR (length sgs) * ln (INR D) <= INR (1 + k * d) * ln (INR D)) by (apply Rmult_le_compat_r; assumption).
    apply le_INR in Hcost. pose proof ln2_pos as H2.
    assert (Hcl : INR (pcost d p) * ln 2 <= INR (1 + 2 * k * d) * ln 2) by (apply Rmult_le_compat_r; [lra|exact Hcost]).
    rewrite Hpp in Hsum. lra.
  Qed.
End learner.

(** ** CTW_KT *)
Lemma ctwkt_learns D L C : (0 < D)%nat ->
  learns CTWKT_model (ctwkt_init (Z.of_nat D)) (bit_after [0; 1]%Z) (tree_sources [0; 1]%Z D L C) (tree_price L C).
Proof.
  intros HD r evs Hr Hev Hpos.
  pose proof (ctw_learns true [0; 1]%Z D bits_nodup ltac:(cbn; auto) (fun _ => incl_refl _) HD L C r evs Hr Hev Hpos) as H.
  assert (Hok : Forall (ok_event [0; 1]%Z (okhK any_hist [0; 1]%Z) nonneg) evs) by (eapply Forall_impl; [|exact Hev]; exact (ctw_ok [0; 1]%Z)).
  destruct (steps_run _ _ _ _ _ (ctw_steps_here true [0; 1]%Z D bits_nodup ltac:(cbn; auto) (fun _ => incl_refl _) HD)
    (ctw_init ktb_init (Z.of_nat D)) evs (ctw_inv_init _ _ _ _ _ _ _) Hok) as (s & l & E & _).
  destruct (ctwkt_run _ (ctwkt_init (Z.of_nat D)) (ctw_init ktb_init (Z.of_nat D)) _ _ (conj eq_refl ksim_new) E) as (k & Ek & _).
  rewrite (seq_prob_run _ _ _ _ _ E) in H. rewrite (seq_prob_run _ _ _ _ _ Ek). exact H.
Qed.

Lemma after_ok e : bit_after [0; 1]%Z e -> ok_event [0; 1]%Z bit_hist (eq 1) e.
Proof.
  intros [[Hs Hw] Hh]. split; [cbn; destruct Hs as [-> | ->]; auto|]. split; [split; [exact I|exact Hh]|symmetry; exact Hw].
Qed.
Lemma after_events seq : forall h, incl seq [0; 1]%Z -> incl h [0; 1]%Z -> Forall (bit_after [0; 1]%Z) (events_from h seq 1).
Proof.
  induction seq as [|a seq IH]; intros h Hs Hh; cbn [events_from]; constructor.
  - split; [|exact Hh]. cbn [ev_sym ev_wt]. split; [|reflexivity]. destruct (Hs a (or_introl eq_refl)) as [<- | [<- | []]]; auto.
  - apply IH; [exact (fun z Hz => Hs z (or_intror Hz))|]. intros z Hz. apply in_app_or in Hz as [Hz|[<- | []]]; [exact (Hh z Hz)|exact (Hs a (or_introl eq_refl))].
Qed.

Section ctwkt.
  Context (F : floats) (u big : R) (max : nat).
  Hypothesis HF : accurate F u big max.
  Hypothesis Hu : 0 <= u <= / 64.
  Variables (D : nat) (seq h : list Z).
  Hypothesis HD : (0 < D)%nat.
  Hypothesis Hs : incl seq [0; 1]%Z.
  Hypothesis Hh : incl h [0; 1]%Z.
  Hypothesis Hne : seq <> [].
  Let n := length seq.
  Let evs := events_from h seq 1.
  Let fresh := ctwkt_init (Z.of_nat D).

  Lemma ctwkt_follows N : (0 < N)%nat -> (2 * N + 2 <= max)%nat -> allowance N <= big -> INR N * u * ((INR D + 1) * allowance N) <= 1 ->
    let eps := INR N * u * ((2 * INR D + 3) * allowance N) in let L := kt_most N in
    0 <= L /\ 0 <= eps /\ INR N * L + 2 <= big /\ steady (FCTWKT_model F) CTWKT_model fresh fresh [0; 1]%Z bit_hist N eps L (ctw_same u N D).
  Proof.
    intros HN Hmax Hall Hsm eps L. pose proof (most_pos N) as HL. fold L in HL. pose proof (pos_INR N) as PN. pose proof (pos_INR D) as PD.
    assert (Hp : 0 <= INR N * L) by (apply Rmult_le_pos; assumption).
    assert (EA : allowance N = 4 * (INR N * L + 2) + 22) by reflexivity.
    split; [exact HL|]. split; [unfold eps; apply Rmult_le_pos; [apply Rmult_le_pos; lra|apply Rmult_le_pos; lra]|]. split; [lra|].
    apply (FloatsFMNKT.ctw_steady F u big max HF Hu N HN Hmax D HD); [change (ln (2 * INR N + 2)) with L; lra|exact Hsm].
  Qed.

  Lemma kctw_steps1 : steps CTWKT_model [0; 1]%Z bit_hist (eq 1) (kctw_inv D).
  Proof. apply (steps_one _ _ bit_hist _ nonneg); [auto|exact Rle_0_1|exact (ctwkt_steps D HD)]. Qed.

  Variables (Lv Cs : nat).

  Theorem ctw_tree r : let eps := INR n * u * ((2 * INR D + 3) * allowance n) in
    (2 * n + 2 <= max)%nat -> allowance n <= big -> INR n * u * ((INR D + 1) * allowance n) <= 1 ->
    let loss := INR n * (eps + u * (INR n * kt_most n + 2)) in loss <= 1 ->
    tree_sources [0; 1]%Z D Lv Cs r -> 0 < Rprod (map r evs) ->
    exists x v, fp_update_seq F (FCTWKT_model F) fresh seq h 1 = Ok (x, h, v) /\
      - v <= - ln (Rprod (map r evs)) + (INR Lv * learn n + INR Cs * ln 2) + loss.
  Proof.
    intros eps Hmax Hall Hsm loss Hl Hr Hpos. assert (Hn : (0 < n)%nat) by (unfold n; destruct seq; [congruence|cbn; lia]).
    destruct (ctwkt_follows n Hn Hmax Hall Hsm) as (HL & He & Hb & HT).
    exact (learn_total F u big max HF Hu (FCTWKT_model F) CTWKT_model fresh fresh [0; 1]%Z bit_hist (tree_sources [0; 1]%Z D Lv Cs) (tree_price Lv Cs) (bit_after [0; 1]%Z)
      after_ok (ctwkt_learns D Lv Cs HD) seq h (after_events seq h Hs Hh) Hne _ _ _ r HT HL He Hb Hl Hr Hpos).
  Qed.

  Variables (q : nat -> event -> R) (cps : list nat) (m : nat).
  Hypothesis Hsrc : forall t, tree_sources [0; 1]%Z D Lv Cs (q t).
  Hypothesis Hch : changes_only q cps.
  Hypothesis Hcps : Forall (fun c => c mod 2 ^ m = 0)%nat cps.
  Hypothesis Hpos : 0 < source_prob q 0 evs.
  Let d := levels m n.
  Let k := length cps.

  Theorem ptw_ctw_tree : let eps := INR n * u * ((2 * INR D + 3) * allowance n) in let L := kt_most n in
    (2 * n + 2 <= max)%nat -> allowance n <= big -> INR n * u * ((INR D + 1) * allowance n) <= 1 ->
    2 * ptw_size n L 0 + 6 <= big -> 25 * (INR n * ptw_loss u n L 0 eps) <= 1 ->
    exists x v, fp_update_seq F (FPTW_model F (FCTWKT_model F) m fresh) (ptw_init m fresh) seq h 1 = Ok (x, h, v) /\
      - v <= - ln (source_prob q 0 evs) + INR (1 + k * d) * (INR Lv * learn n + INR Cs * ln 2)
             + INR (1 + 2 * k * d) * ln 2 + INR (pred d) * ln (3 / 2) + 23 * (INR n * ptw_loss u n L 0 eps).
  Proof.
    intros eps L Hmax Hall Hsm Hb Hl. assert (Hn : (0 < n)%nat) by (unfold n; destruct seq; [congruence|cbn; lia]).
    destruct (ctwkt_follows n Hn Hmax Hall Hsm) as (HL & He & _ & HT).
    exact (fptw_tracks F u big max HF Hu (FCTWKT_model F) CTWKT_model fresh fresh [0; 1]%Z bit_hist (kctw_inv D) kctw_steps1 (kctw_inv_init D)
      (tree_sources [0; 1]%Z D Lv Cs) (tree_price Lv Cs) (bit_after [0; 1]%Z) after_ok (ctwkt_learns D Lv Cs HD) (tree_price_mono Lv Cs) (tree_price_nonneg Lv Cs)
      seq h (after_events seq h Hs Hh) Hne q (fun t e => tree_sources_nonneg [0; 1]%Z D Lv Cs (q t) e (Hsrc t)) Hsrc cps Hch m Hcps Hpos _ _ _ HT HL He Hb Hl).
  Qed.

  Theorem fmn_ctw_tree : let eps := INR (2 * n) * u * ((2 * INR D + 3) * allowance (2 * n)) in let L := kt_most (2 * n) in
    let C := LogStore_class ctwkt in let keeps := (Nat.log2 (n + 1) + 1)%nat in
    (4 * n + 2 <= max)%nat -> allowance (2 * n) <= big -> INR (2 * n) * u * ((INR D + 1) * allowance (2 * n)) <= 1 ->
    fmn_room u big max n keeps L eps ->
    exists s0 s v, ffmn_init F C m fresh = Ok s0 /\ fp_update_seq F (FFMN_model F (FCTWKT_model F) C m) s0 seq h 1 = Ok (s, h, v) /\
      - v <= - ln (source_prob q 0 evs) + INR (1 + k * d) * (INR Lv * learn n + INR Cs * ln 2 + ln (INR keeps))
             + INR (1 + 2 * k * d) * ln 2 + INR (pred d) * ln (3 / 2) + INR n * (23 * fmn_loss u n keeps L eps + 2 * eps).
  Proof.
    intros eps L C keeps Hmax Hall Hsm Hroom. assert (Hn : (0 < n)%nat) by (unfold n; destruct seq; [congruence|cbn; lia]).
    destruct (ctwkt_follows (2 * n) ltac:(lia) ltac:(lia) Hall Hsm) as (HL & He & _ & HT).
    exact (ffmn_tracks F u big max HF Hu (FCTWKT_model F) CTWKT_model fresh fresh [0; 1]%Z bit_hist (kctw_inv D) kctw_steps1 (kctw_inv_init D)
      (tree_sources [0; 1]%Z D Lv Cs) (tree_price Lv Cs) (bit_after [0; 1]%Z) after_ok (ctwkt_learns D Lv Cs HD) (tree_price_mono Lv Cs) (tree_price_nonneg Lv Cs)
      seq h (after_events seq h Hs Hh) Hne q (fun t e => tree_sources_nonneg [0; 1]%Z D Lv Cs (q t) e (Hsrc t)) Hsrc cps Hch m Hcps Hpos _ _ _ HT HL He Hroom).
  Qed.
End ctwkt.

(** with 52 digits, seven bits, depth 8 *)
Lemma tracks_example : let u := powerRZ 2 (-52) in let n := 7%nat in let L := kt_most n in
  let eps := INR n * u * ((2 * INR 8 + 3) * allowance n) in let loss := INR n * (eps + u * (INR n * L + 2)) in
  accurate (chopped 52) u 2000 (Z.to_nat (2 ^ 52)) /\ 0 <= u <= / 64 /\ (2 * n + 2 <= Z.to_nat (2 ^ 52))%nat /\
  allowance n <= 2000 /\ INR n * u * ((INR 8 + 1) * allowance n) <= 1 /\ loss <= / 1000000 /\
  2 * ptw_size n L 0 + 6 <= 2000 /\ 25 * (INR n * ptw_loss u n L 0 eps) <= / 1000000.
Proof.
  cbv zeta. destruct ffmn_example as (H1 & H2 & _). set (u := powerRZ 2 (-52)) in *.
  assert (Hu : u = / IZR (2 ^ 52)).
  { unfold u. replace (-52)%Z with (- (52))%Z by reflexivity. rewrite <- pow2_Z by lia.
    apply Rmult_eq_reg_r with (powerRZ 2 52); [|apply Rgt_not_eq, pow2_pos].
    rewrite <- pow2_add, Rinv_l by (apply Rgt_not_eq, pow2_pos). reflexivity. }
  change (2 ^ 52)%Z with 4503599627370496%Z in Hu.
  assert (HL : 0 <= kt_most 7 <= 15).
  { split; [apply most_pos|]. unfold kt_most.
    assert (E : INR 7 = 7) by (cbn [INR]; lra). rewrite E. replace (2 * 7 + 2) with 16 by lra.
    pose proof (exp_ineq1_le (ln 16)) as E2. rewrite exp_ln in E2 by lra. lra. }
  assert (HA : 0 <= allowance 7 <= 450).
  { unfold allowance. change (ln (2 * INR 7 + 2)) with (kt_most 7). cbn [INR]. lra. }
  assert (He : 0 <= INR 7 * u * ((2 * INR 8 + 3) * allowance 7) <= 60000 * u).
  { set (al := allowance 7) in *. cbn [INR]. rewrite Hu in *. lra. }
  set (eps := INR 7 * u * _) in *.
  split; [exact H1|]. split; [exact H2|]. split; [lia|]. split; [lra|].
  split; [set (al := allowance 7) in *; cbn [INR]; rewrite Hu in *; lra|]. unfold ptw_loss, ptw_size.
  set (k := kt_most 7) in *. clearbody eps k. cbn [INR]. rewrite Hu in *. repeat split; lra.
Qed.

Lemma tracks_meets : let u := powerRZ 2 (-52) in let F := chopped 52 in let fresh := ctwkt_init 8 in
  let eps n := INR n * u * ((2 * INR 8 + 3) * allowance n) in
  steps CTWKT_model [0; 1]%Z bit_hist (eq 1) (kctw_inv 8) /\ kctw_inv 8 fresh /\
  learns CTWKT_model fresh (bit_after [0; 1]%Z) (tree_sources [0; 1]%Z 8 2 3) (tree_price 2 3) /\
  (forall e, bit_after [0; 1]%Z e -> ok_event [0; 1]%Z bit_hist (eq 1) e) /\
  steady (FCTWKT_model F) CTWKT_model fresh fresh [0; 1]%Z bit_hist 7 (eps 7%nat) (kt_most 7) (ctw_same u 7 8) /\
  steady (FCTWKT_model F) CTWKT_model fresh fresh [0; 1]%Z bit_hist (2 * 7) (eps (2 * 7)%nat) (kt_most (2 * 7)) (ctw_same u (2 * 7) 8) /\
  fmn_room u 2000 (Z.to_nat (2 ^ 52)) 7 (Nat.log2 (7 + 1) + 1) (kt_most (2 * 7)) (eps (2 * 7)%nat).
Proof.
  intros u F fresh eps. destruct tracks_example as (HF & Hu & H1 & H2 & H3 & _). destruct ffmn_example as (_ & _ & G1 & _ & G2 & G3 & G4 & _).
  split; [exact (kctw_steps1 8 ltac:(lia))|]. split; [exact (kctw_inv_init 8)|]. split; [exact (ctwkt_learns 8 2 3 ltac:(lia))|].
  split; [exact after_ok|].
  split; [exact (proj2 (proj2 (proj2 (ctwkt_follows F u 2000 _ HF Hu 8 ltac:(lia) 7 ltac:(lia) H1 H2 H3))))|].
  split; [|exact G4].
  exact (proj2 (proj2 (proj2 (ctwkt_follows F u 2000 _ HF Hu 8 ltac:(lia) (2 * 7) ltac:(lia) ltac:(lia) G2 G3)))).
Qed.
