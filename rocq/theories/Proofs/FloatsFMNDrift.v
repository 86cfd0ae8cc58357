(** FMN with rounding against a coin whose bias changes. *)
From Coq Require Import Lra Lia.
From Verif Require Import Spec.FloatsCodeSpec Spec.FloatsNestSpec Spec.ACSpec Spec.KTSpec Spec.SourceSpec Spec.PTWSpec Proofs.ZipModels Proofs.SourceProps Proofs.SourceFacts.
From Verif Require Import Proofs.RealFacts Proofs.PyFacts Proofs.ProbFacts Proofs.KTFacts Proofs.KTBinFacts Proofs.KTRedundancy Proofs.AveragerFacts Proofs.PTWFacts Proofs.PTWTop Proofs.PTWMixture Proofs.PTWNorm Proofs.PTWProps Proofs.SeqFacts.
From Verif Require Import Proofs.FMNFacts Proofs.FMNProps Proofs.StoreFacts Proofs.UniformFacts Proofs.ACOverhead Proofs.FloatsFacts Proofs.FloatsAvgFacts Proofs.FloatsPTW Proofs.FloatsChop Proofs.FloatsPTWSteady Proofs.FloatsFMNFacts Proofs.FloatsFMNTop Proofs.FloatsFMNKT Proofs.FloatsACFacts Proofs.FloatsCode Proofs.FloatsCodeTop Proofs.FloatsFMNCode.
Open Scope R_scope.

(** ** Segments *)
Lemma segments_range m p : forall d s sg, In sg (segments m d s p) -> (s <= fst sg < s + 2 ^ (m + d))%nat.
Proof.
  induction p as [|l IHl r IHr]; intros d s sg H.
  - destruct d; cbn [segments] in H; destruct H as [<- | []]; cbn [fst]; match goal with |- context [(2 ^ ?e)%nat] => pose proof (Nat.pow_nonzero 2 e) end; lia.
  - destruct d as [|d]; cbn [segments] in H.
    + destruct H as [<- | []]. cbn [fst]. pose proof (Nat.pow_nonzero 2 (m + 0)). lia.
    + replace (m + S d)%nat with (S (m + d)) by lia. cbn [Nat.pow]. apply in_app_or in H as [H|H]; [apply IHl in H|apply IHr in H]; lia.
Qed.

Lemma segments_one m p : forall d s sg sg', In sg (segments m d s p) -> In sg' (segments m d s p) -> fst sg = fst sg' -> sg = sg'.
Proof.
  induction p as [|l IHl r IHr]; intros d s sg sg' H H' E.
  - destruct d; cbn [segments] in *; destruct H as [<- | []], H' as [<- | []]; reflexivity.
  - destruct d as [|d]; cbn [segments] in *.
    + destruct H as [<- | []], H' as [<- | []]. reflexivity.
    + apply in_app_or in H as [H|H], H' as [H'|H'].
      * exact (IHl _ _ _ _ H H' E).
      * apply segments_range in H, H'. lia.
      * apply segments_range in H, H'. lia.
      * exact (IHr _ _ _ _ H H' E).
Qed.

(** the parts of the segments that are within the [n] events *)
Lemma segments_total m p n : forall d s,
  Rsum (map (fun sg : nat * nat => INR (Nat.min (snd sg) (n - fst sg))) (segments m d s p)) = INR (Nat.min (2 ^ (m + d)) (n - s)).
Proof.
  induction p as [|l IHl r IHr]; intros d s.
  - destruct d; cbn [segments map fst snd]; rewrite Rsum_cons, Rsum_nil; lra.
  - destruct d as [|d]; cbn [segments].
    + cbn [map fst snd]. rewrite Rsum_cons, Rsum_nil. lra.
    + rewrite map_app, Rsum_app, IHl, IHr, <- plus_INR. f_equal. replace (m + S d)%nat with (S (m + d)) by lia. cbn [Nat.pow]. lia.
Qed.

(** ** What FMN retains *)
Lemma adds_snoc {S T} (C : store_class (S := S) T) xs x : forall t t1 t2, st_adds C t xs = Ok t1 -> st_lazy_add C t1 x = Ok t2 ->
  st_adds C t (xs ++ [x]) = Ok t2.
Proof.
  induction xs as [|y xs IH]; intros t t1 t2 H H2; cbn [st_adds app] in *.
  - injection H as <-. rewrite H2. reflexivity.
  - destruct (st_lazy_add C t y) as [t'|]; [|discriminate]. cbn [bind] in *. exact (IH _ _ _ H H2).
Qed.

Lemma ffmn_adds {S T} F (M : model S) (C : store_class (S := S) T) m fresh : forall evs s xs s' l,
  st_adds C (st_empty C) (fresh :: xs) = Ok (fm_models s) -> run (FFMN_model F M C m) s evs = Ok (s', l) ->
  exists ys, st_adds C (st_empty C) (fresh :: ys) = Ok (fm_models s') /\ (length ys <= length xs + length evs)%nat.
Proof.
  induction evs as [|e evs IH]; intros s xs s' l H Hr; cbn [run length] in *.
  - injection Hr as <- _. exists xs. split; [exact H|lia].
  - destruct (m_update (FFMN_model F M C m) s (ev_sym e) (ev_hist e) (ev_wt e)) as [[s1 l1]|] eqn:E; [|discriminate]. cbn [bind] in Hr.
    destruct (run (FFMN_model F M C m) s1 evs) as [[s2 l2]|] eqn:E2; [|discriminate]. cbn [bind] in Hr. injection Hr as <- _.
    cbn [FFMN_model m_update] in E. unfold ffmn_update in E.
    destruct (ffmn_factory F C (fm_models s)) as [a|]; [|discriminate]. cbn [bind] in E.
    destruct (fptw_update F (FAVG_model F M) m a (fm_ptw s) (ev_sym e) (ev_hist e) (ev_wt e)) as [[p rv]|]; [|discriminate]. cbn [bind] in E.
    destruct (Nat.eqb _ 0).
    + destruct (avg_map (fptw_map F p)) as [[i x]|]; [|discriminate]. cbn [bind] in E.
      destruct (st_lazy_add C (fm_models s) x) as [t|] eqn:Et; [|discriminate]. cbn [bind] in E. injection E as <- _.
      destruct (IH (FMN t p (fm_t s + 1)%nat) (xs ++ [x]) _ _ (adds_snoc C (fresh :: xs) x _ _ _ H Et) E2) as (ys & G1 & G2). exists ys. split; [exact G1|].
      rewrite app_length in G2. cbn [length] in G2. lia.
    + injection E as <- _. destruct (IH (FMN (fm_models s) p (fm_t s + 1)%nat) xs _ _ H E2) as (ys & G1 & G2). exists ys. split; [exact G1|lia].
Qed.

Lemma ffmn_retains_first F (M : model ktb) m s0 evs s l : let C := LogStore_class ktb in
  ffmn_init F C m ktb_init = Ok s0 -> run (FFMN_model F M C m) s0 evs = Ok (s, l) ->
  In ktb_init (st_iter C (fm_models s)) /\ (1 <= length (st_iter C (fm_models s)) <= Nat.log2 (length evs + 1) + 1)%nat.
Proof.
  intros C H0 Hr. unfold ffmn_init in H0. destruct (st_lazy_add C (st_empty C) ktb_init) as [t|] eqn:Et; [|discriminate]. cbn [bind] in H0.
  destruct (ffmn_factory F C t) as [a|]; [|discriminate]. cbn [bind] in H0. injection H0 as <-.
  destruct (ffmn_adds F M C m ktb_init evs (FMN t (ptw_init m a) 0) [] s l) as (ys & Hy & Hl); [cbn [st_adds fm_models]; rewrite Et; reflexivity|exact Hr|].
  cbn [length] in Hl.
  assert (Hin : In ktb_init (st_iter C (fm_models s))).
  { unfold C in *. rewrite ls_adds in Hy. injection Hy as Hy. rewrite <- Hy. cbn [st_iter LogStore_class st_empty].
    pose proof (logstore_items (ktb_init :: ys) ltac:(discriminate)) as Hit.
    apply (f_equal (fun l => nth_error l (Nat.log2 (length (ktb_init :: ys))))) in Hit. rewrite nth_error_map_Some in Hit.
    rewrite nth_error_map, (nth_error_nth' _ 0%nat) in Hit by (rewrite seq_length; lia).
    rewrite seq_nth in Hit by lia. cbn [option_map] in Hit. rewrite Nat.add_0_l, kept_oldest in Hit by (cbn [length]; lia).
    cbn [nth_error] in Hit. destruct (nth_error (ls_iter _) _) as [y|] eqn:Ey; cbn in Hit; [|discriminate]. injection Hit as ->.
    exact (nth_error_In _ _ Ey). }
  split; [exact Hin|]. split.
  - destruct (st_iter C (fm_models s)); [destruct Hin|cbn [length]; lia].
  - apply (log_store_size _ _ _ Hy). cbn [length]. lia.
Qed.

Lemma run_prefix {S} (M : model S) b : forall evs s s' l, run M s evs = Ok (s', l) -> exists s1 l1, run M s (firstn b evs) = Ok (s1, l1).
Proof.
  induction b as [|b IH]; intros evs s s' l H; [exists s, 0; reflexivity|].
  destruct evs as [|e evs]; [exists s, 0; reflexivity|]. cbn [firstn run] in *.
  destruct (m_update M s (ev_sym e) (ev_hist e) (ev_wt e)) as [[s1 l1]|]; [|discriminate]. cbn [bind] in *.
  destruct (run M s1 evs) as [[s2 l2]|] eqn:E; [|discriminate]. destruct (IH _ _ _ _ E) as (s3 & l3 & ->). cbn [bind]. eauto.
Qed.

(** what update_seq runs through *)
Lemma loop_run {S} F (M : model S) : forall seq s h w acc s' h' r, fp_update_seq_loop F M s seq h w acc = Ok (s', h', r) ->
  exists l, run M s (events_from h seq w) = Ok (s', l).
Proof.
  induction seq as [|a seq IH]; intros s h w acc s' h' r H; cbn [fp_update_seq_loop events_from run] in *.
  - injection H as <- _ _. exists 0. reflexivity.
  - cbn [ev_sym ev_hist ev_wt]. destruct (m_update M s a h w) as [[s1 l1]|]; [|discriminate]. cbn [bind] in *.
    destruct (IH _ _ _ _ _ _ _ H) as (l & ->). cbn [bind]. eauto.
Qed.

Lemma events_syms w : forall seq h, map ev_sym (events_from h seq w) = seq.
Proof. induction seq as [|a seq IH]; intros h; cbn [events_from map ev_sym]; [reflexivity|]. now rewrite IH. Qed.

Lemma events_unit : forall seq h, incl seq [0; 1]%Z -> unit_bits (events_from h seq 1).
Proof.
  induction seq as [|a seq IH]; intros h H; cbn [events_from]; constructor.
  - cbn [ev_sym ev_wt]. split; [|reflexivity]. destruct (H a (or_introl eq_refl)) as [<- | [<- | []]]; auto.
  - apply IH. exact (fun z Hz => H z (or_intror Hz)).
Qed.

Section drift.
  Context (F : floats) (u big : R) (max : nat).
  Hypothesis HF : accurate F u big max.
  Hypothesis Hu : 0 <= u <= / 64.

  Theorem ffmn_drift theta cps m seq h : (forall t, 0 <= theta t <= 1) -> changes_at theta cps ->
    Forall (fun c => c mod 2 ^ m = 0)%nat cps -> incl seq [0; 1]%Z -> incl h [0; 1]%Z -> seq <> [] -> 0 < drift_prob theta 0 seq ->
    let n := length seq in let d := levels m n in let k := length cps in let C := LogStore_class ktb in
    let D := (Nat.log2 (n + 1) + 1)%nat in let L := kt_most (2 * n) in let eps := u * (L + 4) in
    (4 * n + 2 <= max)%nat -> fmn_room u big max n D L eps ->
    exists s0 s r, ffmn_init F C m ktb_init = Ok s0 /\ fp_update_seq F (FFMN_model F (FKTB_model F) C m) s0 seq h 1 = Ok (s, h, r) /\
      - r <= - ln (drift_prob theta 0 seq) + INR (1 + k * d) * (learn n + ln (INR D))
             + INR (1 + 2 * k * d) * ln 2 + INR (pred d) * ln (3 / 2) + INR n * (23 * fmn_loss u n D L eps + 2 * eps).
  Proof.
    intros Ht Hch Hc Hs Hh Hne Hpos n d k C D L eps Hmax HR.
    pose proof (fmn_kt_log F u big max HF Hu seq h m Hs Hh Hne Hmax HR) as (s0 & s & r & E0 & Es & Hcomp).
    exists s0, s, r. split; [exact E0|]. split; [exact Es|].
    set (evs := events_from h seq 1) in *. assert (Hle : length evs = n) by apply events_len.
    assert (Hrun : exists l, run (FFMN_model F (FKTB_model F) C m) s0 evs = Ok (s, l)).
    { unfold fp_update_seq in Es. destruct (fp_update_seq_loop _ _ _ _ _ _ _) as [[[s' h'] r']|] eqn:E in Es; [|discriminate].
      cbn [bind] in Es. injection Es as <- _ _. exact (loop_run F _ _ _ _ _ _ _ _ _ E). }
    destruct Hrun as (l & Hrun).
    assert (Hub : unit_bits evs) by (apply events_unit, Hs). assert (Hsy : map ev_sym evs = seq) by apply events_syms.
    assert (Hev : Forall (ok_event [0; 1]%Z bit_hist (eq 1)) evs) by (apply bit_events; assumption).
    assert (Hlen : (length evs <= 2 ^ (m + d))%nat) by (rewrite Hle; apply levels_le; apply le_n).
    destruct (drift_partition theta cps m d evs Ht Hch Hc Hub Hlen) as (p & Hp & Hcost & Hsegs & Hl); [rewrite Hsy; exact Hpos|].
    rewrite Hsy, Hle in Hl. fold k in Hcost, Hsegs, Hl.
    set (seg := fun b => match find (fun sg : nat * nat => Nat.eqb (fst sg) b) (segments m d 0 p) with Some sg => sg | None => (b, 0%nat) end).
    set (loss := fun b => match run (FKTB_model F) ktb_init (firstn (snd (seg b)) (skipn b evs)) with Ok (_, x) => - x | Err _ => 0 end).
    assert (Hseg : forall sg, In sg (segments m d 0 p) -> seg (fst sg) = sg).
    { intros sg Hi. unfold seg. destruct (find _ _) as [sg'|] eqn:E.
      - apply find_some in E as [Hi' E]. apply Nat.eqb_eq in E. exact (segments_one m p d 0 _ _ Hi' Hi E).
      - pose proof (find_none _ _ E sg Hi) as G. cbv beta in G. rewrite Nat.eqb_refl in G. discriminate. }
    set (sgs := filter (fun sg : nat * nat => (fst sg <? n)%nat) (segments m d 0 p)).
    assert (Hin : forall sg, In sg sgs -> In sg (segments m d 0 p) /\ (fst sg < n)%nat).
    { intros sg Hi. apply filter_In in Hi as [Hi Hb]. apply Nat.ltb_lt in Hb. auto. }
    assert (Hn2 : (0 < 2 * n)%nat) by (unfold n; destruct seq; [congruence|cbn; lia]).
    assert (Hrn : forall sg, In sg (segments m d 0 p) -> exists x y lx ly,
      run (FKTB_model F) ktb_init (firstn (snd sg) (skipn (fst sg) evs)) = Ok (x, lx) /\
      run KTB_model ktb_init (firstn (snd sg) (skipn (fst sg) evs)) = Ok (y, ly) /\
      Rabs (lx - ly) <= INR (Nat.min (snd sg) (n - fst sg)) * eps).
    { intros sg Hi.
      assert (El : length (firstn (snd sg) (skipn (fst sg) evs)) = Nat.min (snd sg) (n - fst sg)) by (rewrite firstn_length, skipn_length, Hle; reflexivity).
      rewrite <- El.
      pose proof (ktb_steady F u big max HF Hu (2 * n) Hn2 ltac:(lia)) as HT.
      apply (twin_run max (FKTB_model F) KTB_model ktb_init ktb_init [0; 1]%Z bit_hist n 0 eps L ktb_same HT ltac:(lia) _ 0%nat).
      - exact (sd_new _ _ _ _ _ _ _ _ _ _ HT).
      - rewrite El. lia.
      - apply Forall_firstn, Forall_skipn, Hev. }
    assert (Hret : forall sg, In sg sgs -> In ktb_init (fretained F (FKTB_model F) C m s0 evs (fst sg)) /\
      (1 <= length (fretained F (FKTB_model F) C m s0 evs (fst sg)) <= D)%nat).
    { intros sg Hi. apply Hin in Hi as [_ Hi]. unfold fretained. destruct (run_prefix _ (fst sg) _ _ _ _ Hrun) as (s1 & l1 & E1). rewrite E1.
      destruct (ffmn_retains_first F (FKTB_model F) m s0 _ s1 l1 E0 E1) as (H1 & H2 & H3). split; [exact H1|]. split; [exact H2|].
      etransitivity; [exact H3|]. unfold D. apply Nat.add_le_mono_r, Nat.log2_le_mono. rewrite firstn_length. lia. }
    specialize (Hcomp p (fun _ => ktb_init) loss Hp). fold n d evs sgs in Hcomp.
    assert (Hhyp : forall sg, In sg sgs -> In ktb_init (fretained F (FKTB_model F) C m s0 evs (fst sg)) /\
      exists x, run (FKTB_model F) ktb_init (firstn (snd sg) (skipn (fst sg) evs)) = Ok (x, - loss (fst sg))).
    { intros sg Hi. split; [exact (proj1 (Hret sg Hi))|]. destruct (Hin sg Hi) as [Hi' _].
      destruct (Hrn sg Hi') as (x & y & lx & ly & E1 & _ & _). exists x. unfold loss. rewrite (Hseg sg Hi'), E1, Ropp_involutive. reflexivity. }
    specialize (Hcomp Hhyp). fold D L eps in Hcomp.
    set (f := fun sg : nat * nat => - ln (seq_prob KTB_model ktb_init (firstn (snd sg) (skipn (fst sg) evs)))).
    set (g := fun sg : nat * nat => INR (Nat.min (snd sg) (n - fst sg))).
    assert (HD1 : 1 <= INR D) by (apply (le_INR 1); unfold D; lia).
    assert (HL0 : 0 <= ln (INR D)) by (rewrite <- ln_1; apply ln_le; lra).
    assert (He0 : 0 <= eps) by (unfold eps; pose proof (most_pos (2 * n)) as Hmp; fold L in Hmp; apply Rmult_le_pos; lra).
    assert (Hsum : Rsum (map (fun sg => loss (fst sg) + ln (INR (length (fretained F (FKTB_model F) C m s0 evs (fst sg))))) sgs)
                   <= Rsum (map f sgs) + Rsum (map g sgs) * eps + INR (length sgs) * ln (INR D)).
    { replace (Rsum (map g sgs) * eps) with (eps * Rsum (map g sgs)) by ring. rewrite <- (Rsum_const (ln (INR D)) sgs), <- Rsum_scal_l, <- !Rsum_plus.
      apply Rsum_le. intros sg Hi. destruct (Hret sg Hi) as (_ & R1 & R2). destruct (Hin sg Hi) as [Hi' _].
      destruct (Hrn sg Hi') as (x & y & lx & ly & E1 & E2 & E3). unfold f, loss. rewrite (Hseg sg Hi'), E1, (seq_prob_run _ _ _ _ _ E2), ln_exp.
      apply le_INR in R1 as R1'. apply le_INR in R2. change (INR 1) with 1 in R1'.
      assert (R3 := ln_le _ _ (Rlt_le_trans _ _ _ Rlt_0_1 R1') R2). apply abs_le in E3. fold (g sg) in E3. lra. }
    assert (Hpp : Rsum (map f sgs) = - ln (part_prob KTB_model (fun _ => ktb_init) m d 0 p evs)).
    { unfold sgs. rewrite Rsum_drop.
      - rewrite part_prob_segments by assumption.
        rewrite (Rprod_map_ext _ (fun sg => seq_prob KTB_model ktb_init (firstn (snd sg) (skipn (fst sg) evs)))).
        2:{ intros sg _. rewrite Nat.sub_0_r. reflexivity. }
        destruct (ln_Rprod (fun sg => seq_prob KTB_model ktb_init (firstn (snd sg) (skipn (fst sg) evs))) (segments m d 0 p)) as (_ & ->).
        + intros sg Hi. destruct (Hrn sg Hi) as (x & y & lx & ly & _ & E2 & _). rewrite (seq_prob_run _ _ _ _ _ E2). apply exp_pos.
        + unfold f. replace (- Rsum (map (fun sg => ln (seq_prob KTB_model ktb_init (firstn (snd sg) (skipn (fst sg) evs)))) (segments m d 0 p)))
            with (-1 * Rsum (map (fun sg => ln (seq_prob KTB_model ktb_init (firstn (snd sg) (skipn (fst sg) evs)))) (segments m d 0 p))) by lra.
          rewrite <- Rsum_scal_l. apply Rsum_map_ext. intros sg _. lra.
      - intros sg _ Hf. apply Nat.ltb_ge in Hf. unfold f. rewrite skipn_all2 by lia. rewrite firstn_nil. cbn [seq_prob]. rewrite ln_1. lra. }
    assert (Hg : Rsum (map g sgs) <= INR n).
    { unfold sgs. rewrite Rsum_drop.
      - unfold g. rewrite segments_total. apply le_INR. lia.
      - intros sg _ Hf. apply Nat.ltb_ge in Hf. unfold g. replace (n - fst sg)%nat with 0%nat by lia. rewrite Nat.min_0_r. reflexivity. }
    assert (Hge : Rsum (map g sgs) * eps <= INR n * eps) by (apply Rmult_le_compat_r; assumption).
    assert (Hns : INR (length sgs) <= INR (1 + k * d)).
    { apply le_INR. unfold sgs. pose proof (PTWProps.filter_length_le' (fun sg : nat * nat => (fst sg <? n)%nat) (segments m d 0 p)). lia. }
    assert (Hnl : INR (length sgs) * ln (INR D) <= INR (1 + k * d) * ln (INR D)) by (apply Rmult_le_compat_r; assumption).
    apply le_INR in Hcost. pose proof ln2_pos as H2.
    assert (Hcl : INR (pcost d p) * ln 2 <= INR (1 + 2 * k * d) * ln 2) by (apply Rmult_le_compat_r; lra).
    rewrite Hpp in Hsum. change (LogStore_class ktb) with C in Hcomp. lra.
  Qed.

  (** ... and the size of the code. *)
  Variable mul : R -> R -> R.
  Hypothesis Hbig1 : 1 <= big.
  Hypothesis Hmul : multiplies mul u (2 ^ 32).

  Theorem fmn_code_drift theta cps m bits fuel : (forall t, 0 <= theta t <= 1) -> changes_at theta cps ->
    Forall (fun c => c mod 2 ^ m = 0)%nat cps -> Forall is_bit bits -> bits <> [] -> 0 < drift_prob theta 0 bits -> (32 < fuel)%nat ->
    let n := length bits in let d := levels m n in let k := length cps in let C := LogStore_class ktb in
    let D := (Nat.log2 (n + 1) + 1)%nat in let L := kt_most (2 * n) in let eps := u * (L + 4) in let v := fmn_loss u n D L eps in
    (4 * n + 2 <= max)%nat -> fmn_room u big max n D L eps ->
    32 * (2 * INR n + 1) * u <= 1 -> 8 * (2 * INR n + 1) * (45 * (INR n * v)) <= 1 ->
    exists s0 code, ffmn_init F C m ktb_init = Ok s0 /\
      compress (fp_coder_of F mul (FFMN_model F (FKTB_model F) C m)) 32 fuel s0 bits = Ok code /\
      20 * (INR (length code) - 2) <=
      26 * ((- ln (drift_prob theta 0 bits) + INR (1 + k * d) * (learn n + ln (INR D)) + INR (1 + 2 * k * d) * ln 2
             + INR (pred d) * ln (3 / 2) + INR n * (/ 64 + 25 * v + 2 * eps + 32 * (2 * INR n + 1) * u)) / ln 2 + 6).
  Proof.
    intros Ht Hch Hc Hb Hne Hpos Hf n d k C D L eps v Hmax HR H1 H2.
    destruct (fmn_code F mul u big max HF Hu Hbig1 Hmul C _ D m bits fuel (logstore_law ktb) (fun xs t => log_store_size xs t n) Hb Hne Hf Hmax HR H1 H2)
      as (s0 & s & r & code & E0 & Es & Ec & Hcode).
    destruct (ffmn_drift theta cps m bits [] Ht Hch Hc (proj2 (bits_are bits Hb)) (incl_nil_l _) Hne Hpos Hmax HR) as (s0' & s' & r' & E0' & Es' & Hr).
    fold C in E0', Es'. rewrite E0 in E0'. injection E0' as <-. rewrite Es in Es'. injection Es' as <- <-.
    exists s0, code. split; [exact E0|]. split; [exact Ec|].
    fold n d k D L eps v in Hr. fold n L eps in Hcode. fold v in Hcode.
    eapply Rle_trans; [exact Hcode|]. apply Rmult_le_compat_l; [lra|]. apply Rplus_le_compat_r. pose proof ln2_pos as Hg.
    apply Rmult_le_compat_r; [left; now apply Rinv_0_lt_compat|]. lra.
  Qed.
End drift.

Lemma fmn_drift_example : let u := powerRZ 2 (-52) in let big := 1000000 in let max := Z.to_nat (2 ^ 52) in
  let bits := alternating 50 in let n := length bits in let D := (Nat.log2 (n + 1) + 1)%nat in
  let theta := fun t => if (t <? 64)%nat then / 4 else 3 / 4 in
  let L := kt_most (2 * n) in let eps := u * (L + 4) in let v := fmn_loss u n D L eps in
  accurate (chopped 52) u big max /\ 0 <= u <= / 64 /\ 1 <= big /\ multiplies (fun x y => chop 52 (x * y)) u (2 ^ 32) /\
  (forall t, 0 <= theta t <= 1) /\ changes_at theta [64%nat] /\ Forall (fun c => c mod 2 ^ 5 = 0)%nat [64%nat] /\
  Forall is_bit bits /\ incl bits [0; 1]%Z /\ bits <> [] /\ 0 < drift_prob theta 0 bits /\ n = 100%nat /\ D = 7%nat /\ levels 5 n = 2%nat /\
  (4 * n + 2 <= max)%nat /\ fmn_room u big max n D L eps /\
  32 * (2 * INR n + 1) * u <= 1 /\ 8 * (2 * INR n + 1) * (45 * (INR n * v)) <= 1 /\
  INR n * (25 * v + 2 * eps + 32 * (2 * INR n + 1) * u) <= / 500.
Proof.
  destruct fmn_code_example as (A1 & A2 & A3 & A4 & A5 & A6 & A7 & A8 & A9 & A10 & A11 & A12).
  destruct code_example as (_ & _ & _ & _ & _ & _ & _ & _ & _ & _ & _ & _ & _ & _ & B1 & B2 & B3 & _).
  cbv zeta. split; [exact A1|]. split; [exact A2|]. split; [exact A3|]. split; [exact A4|]. split; [exact B1|]. split; [exact B2|].
  split; [constructor; [reflexivity|constructor]|]. split; [exact A5|]. split; [exact (proj2 (bits_are _ A5))|]. split; [exact A6|].
  split; [exact B3|]. split; [exact A7|]. split; [reflexivity|]. split; [reflexivity|]. split; [exact A8|]. split; [exact A9|].
  split; [exact A10|]. split; [exact A11|].
  set (w := fmn_loss _ _ _ _ _) in *. set (L := kt_most _) in *. set (u := powerRZ 2 (-52)) in *. set (n := length (alternating 50)) in *.
  pose proof (most_pos (2 * n)) as HL. fold L in HL. assert (HN : INR n = 100) by (rewrite A7, INR_IZR_INZ; reflexivity). rewrite HN in *.
  assert (He : 0 <= u * (L + 4)) by (apply Rmult_le_pos; lra).
  assert (Hw : 0 <= w).
  { unfold w, fmn_loss, ptw_loss, avg_eps, avg_drift. set (D := (Nat.log2 (n + 1) + 1)%nat).
    assert (HlD : 0 <= ln (INR D)) by (rewrite <- ln_1; apply ln_le; [lra|apply (le_INR 1); unfold D; lia]).
    assert (Ha : 0 <= avg_size n D L 0) by (unfold avg_size; rewrite HN; lra).
    assert (Hs : 0 <= ptw_size n L 0) by (unfold ptw_size; rewrite HN; lra).
    assert (0 <= u * avg_size n D L 0) by (apply Rmult_le_pos; lra).
    pose proof (pow2_ge_0 (INR D + 1)).
    assert (0 <= u * (2 * avg_size n D L 0 + 4 * (INR D + 1) ^ 2)) by (apply Rmult_le_pos; lra).
    assert (0 <= u * (3 * ptw_size n L 0 + 20)) by (apply Rmult_le_pos; lra). rewrite HN. lra. }
  lra.
Qed.
