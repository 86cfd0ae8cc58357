(** Any model that learns a class of sources, inside PTW or FMN, tracks sources of the class that change. *)
From Coq Require Import Lra.
From Verif Require Import Model.KT Model.PTW Model.FMN Spec.CombinedSpec Spec.PTWSpec Spec.FMNSpec.
From Verif Require Import Proofs.RealFacts Proofs.PyFacts Proofs.ProbFacts.
From Verif Require Import Proofs.KTRedundancy Proofs.PTWFacts Proofs.PTWMixture Proofs.PTWTop Proofs.PTWProps.
From Verif Require Import Proofs.StoreFacts Proofs.FMNFacts Proofs.FMNProps Proofs.SourceFacts Proofs.SourceProps.
Open Scope R_scope.

Lemma source_app q xs : forall t ys, source_prob q t (xs ++ ys) = source_prob q t xs * source_prob q (t + length xs) ys.
Proof.
  induction xs as [|x xs IH]; intros t ys; cbn [source_prob app length]; [rewrite Nat.add_0_r; lra|].
  rewrite IH. replace (S t + length xs)%nat with (t + S (length xs))%nat by lia. lra.
Qed.

Lemma source_nonneg q xs : (forall t e, 0 <= q t e) -> forall t, 0 <= source_prob q t xs.
Proof.
  intros Hq. induction xs as [|x xs IH]; intros t; cbn [source_prob]; [lra|]. apply Rmult_le_pos; [apply Hq|apply IH].
Qed.

Lemma source_same q cps s n : changes_only q cps -> (forall c, In c cps -> (s < c)%nat -> (s + n <= c)%nat) ->
  forall i e, (i < n)%nat -> q (s + i)%nat e = q s e.
Proof.
  intros Hc Hr. induction i as [|i IH]; intros e Hi; [rewrite Nat.add_0_r; reflexivity|].
  rewrite <- IH by lia. replace (s + S i)%nat with (S (s + i)) by lia. apply Hc. intros Hin.
  specialize (Hr _ Hin ltac:(lia)). lia.
Qed.

Lemma source_const q r evs : forall s, (forall i e, (i < length evs)%nat -> q (s + i)%nat e = r e) ->
  source_prob q s evs = Rprod (map r evs).
Proof.
  induction evs as [|x evs IH]; intros s H; cbn [source_prob map]; [reflexivity|]. rewrite Rprod_cons.
  rewrite <- (H 0%nat x) by (cbn; lia). rewrite Nat.add_0_r. f_equal. apply IH. intros i e Hi.
  replace (S s + i)%nat with (s + S i)%nat by lia. apply H. cbn; lia.
Qed.

Section learner.
  Context {St : Type} (M : model St) (A : list Z) (okh : list Z -> Prop) (okw : R -> Prop) (Inv : St -> Prop).
  Hypothesis HS : steps M A okh okw Inv.
  Variable fresh : St.
  Hypothesis Hfresh : Inv fresh.
  Variable src : (event -> R) -> Prop.
  Variable price : nat -> R.
  Variable ok : event -> Prop.
  Hypothesis Hok : forall e, ok e -> ok_event A okh okw e.
  Hypothesis Hlearn : learns M fresh ok src price.
  Hypothesis Hmono : forall a b, (a <= b)%nat -> price a <= price b.
  Hypothesis Hprice : forall n, 0 <= price n.
  Variable q : nat -> event -> R.
  Hypothesis Hq : forall t e, 0 <= q t e.
  Hypothesis Hsrc : forall t, src (q t).
  Variable cps : list nat.
  Hypothesis Hch : changes_only q cps.

  Lemma all_ok evs : Forall ok evs -> Forall (ok_event A okh okw) evs.
  Proof. intros H. eapply Forall_impl; [|exact H]. exact Hok. Qed.

  Lemma stretch N s n evs : (length evs <= N)%nat -> (length evs <= n)%nat -> Forall ok evs -> respects cps [(s, n)] ->
    source_prob q s evs * exp (- price N) <= seq_prob M fresh evs.
  Proof.
    intros HN Hn Hev Hr. pose proof (steps_seq_prob_pos M A okh okw Inv HS fresh evs Hfresh (all_ok _ Hev)) as Hp.
    assert (E : source_prob q s evs = Rprod (map (q s) evs)).
    { apply source_const. intros i e Hi. apply (source_same q cps s n Hch); [|lia].
      intros c Hin Hlt. specialize (Hr s n (or_introl eq_refl) c Hin). lia. }
    destruct (Rle_lt_or_eq_dec _ _ (source_nonneg q evs Hq s)) as [Hpos|<-]; [|lra]. rewrite E in *.
    pose proof (Hlearn (q s) evs (Hsrc s) Hev Hpos) as HL. pose proof (Hmono _ _ HN) as HM.
    rewrite <- (exp_ln (Rprod (map (q s) evs))) by exact Hpos. rewrite <- exp_plus.
    rewrite <- (exp_ln (seq_prob M fresh evs)) by exact Hp.
    destruct (Rle_lt_or_eq_dec (ln (Rprod (map (q s) evs)) + - price N) (ln (seq_prob M fresh evs))) as [H|H];
      [lra|left; apply exp_increasing; exact H|rewrite H; lra].
  Qed.

  (** What a partition that splits at every change loses against the source. *)
  Lemma part_source m N : forall p d s evs, (length evs <= N)%nat -> (length evs <= 2 ^ (m + d))%nat -> Forall ok evs ->
    respects cps (segments m d s p) ->
    source_prob q s evs * exp (- (INR (length (segments m d s p)) * price N)) <= part_prob M (fun _ => fresh) m d s p evs.
  Proof.
    assert (HW : forall s n evs, (length evs <= N)%nat -> (length evs <= n)%nat -> Forall ok evs -> respects cps [(s, n)] ->
       source_prob q s evs * exp (- (INR 1 * price N)) <= seq_prob M fresh evs).
    { intros s n evs HN Hn Hev Hr. cbn [INR]. rewrite Rmult_1_l. exact (stretch N s n evs HN Hn Hev Hr). }
    induction p as [|l IHl r IHr]; intros d s evs HN Hlen Hu Hr.
    - cbn [part_prob]. assert (E : segments m d s Whole = [(s, 2 ^ (m + d))%nat]) by (destruct d; reflexivity).
      rewrite E in *. cbn [length]. assert (E2 : part_prob M (fun _ => fresh) m d s Whole evs = seq_prob M fresh evs)
        by (destruct d; reflexivity).
      rewrite ?E2. apply (HW s _ evs HN Hlen Hu Hr).
    - destruct d as [|d]; [cbn [part_prob segments length] in *; apply (HW s _ evs HN Hlen Hu Hr)|].
      cbn [part_prob segments] in *. set (half := (2 ^ (m + d))%nat) in *.
      rewrite <- (firstn_skipn half evs) at 1. rewrite source_app, app_length, plus_INR.
      assert (Hpow : (2 ^ (m + S d) = half + half)%nat)
        by (unfold half; replace (m + S d)%nat with (S (m + d)) by lia; cbn [Nat.pow]; lia).
      assert (Hu12 : Forall ok (firstn half evs) /\ Forall ok (skipn half evs))
        by (rewrite <- Forall_app, firstn_skipn; exact Hu).
      destruct Hu12 as [Hu1 Hu2].
      assert (H1 : source_prob q s (firstn half evs) * exp (- (INR (length (segments m d s l)) * price N)) <=
                   part_prob M (fun _ => fresh) m d s l (firstn half evs)).
      { apply IHl; auto; rewrite ?firstn_length; [lia|fold half; lia|].
        intros b n Hin. apply Hr, in_or_app. left; exact Hin. }
      assert (H2 : source_prob q (s + half) (skipn half evs) * exp (- (INR (length (segments m d (s + half) r)) * price N)) <=
                   part_prob M (fun _ => fresh) m d (s + half) r (skipn half evs)).
      { apply IHr; auto; rewrite ?skipn_length; [lia|fold half; lia|].
        intros b n Hin. apply Hr, in_or_app. right; exact Hin. }
      assert (E : source_prob q (s + length (firstn half evs)) (skipn half evs) = source_prob q (s + half) (skipn half evs)).
      { rewrite firstn_length. destruct (le_lt_dec (length evs) half) as [Hle|Hlt].
        - rewrite skipn_all2 by exact Hle. reflexivity.
        - rewrite Nat.min_l by lia. reflexivity. }
      rewrite E.
      replace (- ((INR (length (segments m d s l)) + INR (length (segments m d (s + half) r))) * price N))
        with (- (INR (length (segments m d s l)) * price N) + - (INR (length (segments m d (s + half) r)) * price N)) by lra.
      rewrite exp_plus.
      pose proof (source_nonneg q (firstn half evs) Hq s).
      pose proof (source_nonneg q (skipn half evs) Hq (s + half)).
      pose proof (exp_pos (- (INR (length (segments m d s l)) * price N))).
      pose proof (exp_pos (- (INR (length (segments m d (s + half) r)) * price N))).
      match goal with |- ?a * ?b * (?c * ?e) <= _ => replace (a * b * (c * e)) with ((a * c) * (b * e)) by lra end.
      apply Rmult_le_compat; try assumption; apply Rmult_le_pos; lra.
  Qed.

  Variable m : nat.
  Hypothesis Hcps : Forall (fun c => c mod 2 ^ m = 0)%nat cps.

  Lemma source_partition d evs : Forall ok evs -> (length evs <= 2 ^ (m + d))%nat -> 0 < source_prob q 0 evs ->
    exists p, is_part d p /\ (pcost d p <= 1 + 2 * length cps * d)%nat /\
      (length (segments m d 0 p) <= 1 + length cps * d)%nat /\
      - ln (part_prob M (fun _ => fresh) m d 0 p evs) <=
      - ln (source_prob q 0 evs) + INR (1 + length cps * d) * price (length evs).
  Proof.
    intros Hu Hlen Hpos. assert (Hm : (2 ^ m <> 0)%nat) by (apply Nat.pow_nonzero; lia).
    destruct (partition_for m cps Hcps d 0 (Nat.mod_0_l _ Hm)) as (p & Hp & Hr & Hcost & Hsegs).
    pose proof (filter_length_le' (inside 0 (0 + 2 ^ (m + d))) cps) as Hfl.
    exists p. split; [exact Hp|]. split; [nia|]. assert (Hsl : (length (segments m d 0 p) <= 1 + length cps * d)%nat) by nia.
    split; [exact Hsl|].
    pose proof (part_source m (length evs) p d 0 evs (le_n _) Hlen Hu Hr) as H.
    apply KTRedundancy.ln_le in H; [|apply Rmult_lt_0_compat; [exact Hpos|apply exp_pos]].
    rewrite ln_mult, ln_exp in H by (auto using exp_pos).
    apply le_INR in Hsl. pose proof (Hprice (length evs)). nra.
  Qed.

  Lemma ptw_tracks evs : Forall ok evs -> 0 < source_prob q 0 evs ->
    let d := levels m (length evs) in let k := length cps in
    exists s l, run (PTW_model M m fresh) (ptw_init m fresh) evs = Ok (s, l) /\
      - l <= - ln (source_prob q 0 evs) + INR (1 + k * d) * price (length evs)
             + INR (1 + 2 * k * d) * ln 2 + INR (pred d) * ln (3 / 2).
  Proof.
    intros Hu Hpos d k. assert (Hlen : (length evs <= 2 ^ (m + d))%nat) by (apply levels_le; unfold d; lia).
    destruct (source_partition d evs Hu Hlen Hpos) as (p & Hp & Hcost & _ & Hl).
    destruct (ptw_unknown_regret M A okh okw Inv HS (fun _ => fresh) (fun _ => Hfresh) m evs p (all_ok _ Hu) Hp) as (s & l & Hf & Hreg).
    exists s, l. split.
    - rewrite <- Hf. symmetry. exact (PTWFacts.feed_const (PTW_model M m fresh) 0 _ evs).
    - fold d in Hreg. apply le_INR in Hcost.
      assert (0 < ln 2) by (rewrite <- ln_1; apply ln_increasing; lra). fold k in Hl, Hcost. nra.
  Qed.

  Lemma retains_first evs s0 b : Forall ok evs -> fmn_init (LogStore_class St) m fresh = Ok s0 -> (b <= length evs)%nat ->
    In fresh (retained M (LogStore_class St) m s0 evs b) /\
    length (retained M (LogStore_class St) m s0 evs b) = (Nat.log2 (1 + b / 2 ^ m) + 1)%nat.
  Proof.
    intros Hu H0 Hb. pose proof (all_ok _ (Forall_firstn _ b _ Hu)) as Hu1.
    destruct (fmn_total M (LogStore_class St) _ A okh okw Inv (logstore_law St) m HS fresh (firstn b evs) Hfresh Hu1) as (s0' & s & l & H0' & Hr).
    rewrite H0 in H0'. injection H0' as <-. unfold retained. rewrite Hr.
    destruct (fmn_logstore_retains M A okh okw Inv m fresh (firstn b evs) s0 s l HS Hfresh Hu1 H0 Hr) as (Hlen & Hnth).
    rewrite firstn_length, Nat.min_l in * by exact Hb. split; [|exact Hlen]. eapply nth_error_In. exact Hnth.
  Qed.

  Lemma fmn_tracks evs : Forall ok evs -> 0 < source_prob q 0 evs ->
    let n := length evs in let d := levels m n in let k := length cps in
    exists s0 s l, fmn_init (LogStore_class St) m fresh = Ok s0 /\
      run (FMN_model M (LogStore_class St) m) s0 evs = Ok (s, l) /\
      - l <= - ln (source_prob q 0 evs)
             + INR (1 + k * d) * (price n + ln (INR (Nat.log2 (1 + n / 2 ^ m) + 1)))
             + INR (1 + 2 * k * d) * ln 2 + INR (pred d) * ln (3 / 2).
  Proof.
    intros Hu Hpos n d k. assert (Hlen : (length evs <= 2 ^ (m + d))%nat) by (apply levels_le; unfold d, n; lia).
    destruct (source_partition d evs Hu Hlen Hpos) as (p & Hp & Hcost & Hsegs & Hl). pose proof (all_ok _ Hu) as Hev.
    destruct (fmn_total M (LogStore_class St) _ A okh okw Inv (logstore_law St) m HS fresh evs Hfresh Hev) as (s0 & s & l & H0 & Hr).
    exists s0, s, l. split; [exact H0|]. split; [exact Hr|].
    set (sgs := filter (fun sg : nat * nat => (fst sg <? length evs)%nat) (segments m d 0 p)).
    assert (Hin : forall sg, In sg sgs -> (fst sg <= length evs)%nat).
    { intros sg Hi. apply filter_In in Hi as [_ Hi]. apply Nat.ltb_lt in Hi. lia. }
    pose proof (fmn_competes M (LogStore_class St) _ A okh okw Inv (logstore_law St) m HS fresh evs s0 s l p (fun _ => fresh)
       Hfresh Hev H0 Hr Hp) as Hreg.
    cbv zeta in Hreg. fold n d in Hreg. change n with (length evs) in Hreg. fold sgs in Hreg.
    specialize (Hreg (fun sg Hi => proj1 (retains_first evs s0 (fst sg) Hu H0 (Hin sg Hi)))).
    set (L := ln (INR (Nat.log2 (1 + n / 2 ^ m) + 1))).
    set (f := fun sg : nat * nat => - ln (seq_prob M fresh (firstn (snd sg) (skipn (fst sg) evs)))).
    assert (HL : 0 <= L).
    { unfold L. rewrite <- ln_1. apply KTRedundancy.ln_le; [lra|]. change 1 with (INR 1). apply le_INR. lia. }
    assert (Hsum : Rsum (map (fun sg => f sg + ln (INR (length (retained M (LogStore_class St) m s0 evs (fst sg))))) sgs)
                   <= Rsum (map f sgs) + INR (length sgs) * L).
    { rewrite <- (Rsum_const L sgs), <- Rsum_plus. apply Rsum_le. intros sg Hi.
      destruct (retains_first evs s0 (fst sg) Hu H0 (Hin sg Hi)) as (_ & ->). apply Rplus_le_compat_l. unfold L.
      apply KTRedundancy.ln_le; [apply lt_0_INR; lia|]. apply le_INR. apply Nat.add_le_mono_r. apply Nat.log2_le_mono.
      apply Nat.add_le_mono_l. apply Nat.div_le_mono; [apply Nat.pow_nonzero; discriminate|]. exact (Hin sg Hi). }
    assert (Hpp : Rsum (map f sgs) = - ln (part_prob M (fun _ => fresh) m d 0 p evs)).
    { unfold sgs. rewrite Rsum_drop.
      - rewrite part_prob_segments by assumption.
        rewrite (Rprod_map_ext _ (fun sg => seq_prob M fresh (firstn (snd sg) (skipn (fst sg) evs)))).
        2:{ intros sg _. rewrite Nat.sub_0_r. reflexivity. }
        destruct (ln_Rprod (fun sg => seq_prob M fresh (firstn (snd sg) (skipn (fst sg) evs))) (segments m d 0 p)) as (_ & ->).
        + intros sg _. apply (steps_seq_prob_pos M A okh okw Inv HS); [exact Hfresh|]. apply Forall_firstn, Forall_skipn, Hev.
        + unfold f. replace (- Rsum (map (fun sg => ln (seq_prob M fresh (firstn (snd sg) (skipn (fst sg) evs)))) (segments m d 0 p)))
            with (-1 * Rsum (map (fun sg => ln (seq_prob M fresh (firstn (snd sg) (skipn (fst sg) evs)))) (segments m d 0 p))) by lra.
          rewrite <- Rsum_scal_l. apply Rsum_map_ext. intros sg _. lra.
      - intros sg _ Hf. apply Nat.ltb_ge in Hf. unfold f. rewrite skipn_all2 by exact Hf. rewrite firstn_nil.
        cbn [seq_prob]. rewrite ln_1. lra. }
    assert (Hns : INR (length sgs) <= INR (1 + k * d)).
    { apply le_INR. unfold sgs. pose proof (filter_length_le' (fun sg : nat * nat => (fst sg <? length evs)%nat) (segments m d 0 p)). unfold k. lia. }
    apply le_INR in Hcost. assert (0 < ln 2) by (rewrite <- ln_1; apply ln_increasing; lra).
    fold k in Hl, Hcost. change (length evs) with n in Hl. cbv beta in Hreg. unfold f in Hsum at 1. rewrite Hpp in Hsum.
    pose proof (pos_INR (length sgs)). nra.
  Qed.
End learner.
