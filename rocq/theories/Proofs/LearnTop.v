(** CTW over any model that learns a class of sources; KT and SAD over any alphabet inside CTW, PTW and FMN. *)
From Coq Require Import Lra Lia.
From Verif Require Import Model.KT Model.CTW Model.PTW Model.FMN Spec.LearnSpec Spec.PTWSpec Spec.FMNSpec.
From Verif Require Import Proofs.RealFacts Proofs.PyFacts Proofs.ProbFacts Proofs.KTFacts Proofs.SADFacts Proofs.KTRedundancy.
From Verif Require Import Proofs.PTWFacts Proofs.PTWMixture Proofs.PTWTop Proofs.PTWProps Proofs.PTWNorm.
From Verif Require Import Proofs.CTWFacts Proofs.CTWMixture Proofs.CTWTop Proofs.CTWProps.
From Verif Require Import Proofs.SourceFacts Proofs.SourceProps Proofs.SourceCTW Proofs.CombinedFacts Proofs.CombinedTop Proofs.LearnEst.
Open Scope R_scope.

Section ctw.
  Context {St : Type} (M : model St) (A : list Z) (okh : list Z -> Prop) (okw : R -> Prop) (Inv : St -> Prop).
  Hypothesis HS : steps M A okh okw Inv.
  Variable fresh : St.
  Hypothesis Hfresh : Inv fresh.
  Context (src : (event -> R) -> Prop) (price : nat -> R) (ok : event -> Prop).
  Hypothesis Hok : forall e, ok e -> ok_event A okh okw e.
  Hypothesis Hlearn : learns M fresh ok src price.
  Hypothesis Hmono : forall a b, (a <= b)%nat -> price a <= price b.
  Hypothesis Hprice : forall n, 0 <= price n.
  Hypothesis Hsrc0 : forall r e, src r -> 0 <= r e.
  Variables (binary : bool) (K : list Z) (D : nat).
  Hypothesis HK : NoDup K.
  Hypothesis H0 : In 0%Z K.
  Hypothesis HB : binary = true -> incl K [0; 1]%Z.
  Hypothesis HD : (0 < D)%nat.

  Definition after (e : event) : Prop := ok e /\ incl (ev_hist e) K.

  Lemma tree_by_leaf (q : list Z -> event -> R) t evs : is_tree K D t -> Forall after evs ->
    Rprod (map (fun e => q (leaf_at K [] t (recent D (ev_hist e))) e) evs) =
    Rprod (map (fun v => Rprod (map (q v) (sel (recent D) v evs))) (leaves K [] t)).
  Proof.
    intros Ht. induction evs as [|e evs IH]; intros Hev.
    - cbn [map sel filter]. rewrite Rprod_nil. symmetry. induction (leaves K [] t) as [|v vs IHv]; cbn [map]; [reflexivity|].
      rewrite Rprod_cons, IHv, ?Rprod_nil. lra.
    - inversion Hev as [|x y [Hb Hh] Hev']; subst. cbn [map]. rewrite Rprod_cons, (IH Hev').
      rewrite <- (hit_leaves K (recent D) HK (fun v => q v e) e D t [] (recent D (ev_hist e)) Ht eq_refl).
      2:{ rewrite recent_length. lia. }
      2:{ apply recent_incl; assumption. }
      rewrite <- Rprod_map_mult. apply Rprod_map_ext. intros v _. unfold hit. cbn [sel filter].
      destruct (matches (recent D) v e) eqn:E; [|unfold sel; lra]. cbn [map]. rewrite Rprod_cons. reflexivity.
  Qed.

  Lemma Rprod_nonneg {X} (f : X -> R) l : (forall x, 0 <= f x) -> 0 <= Rprod (map f l).
  Proof. intros H. induction l as [|x l IH]; cbn [map]; [rewrite Rprod_nil; lra|]. rewrite Rprod_cons. apply Rmult_le_pos; auto. Qed.

  Theorem ctw_of_learner L C :
    learns (CTW_model M fresh binary) (ctw_init fresh (Z.of_nat D)) after (tree_of src K D L C) (fun n => INR L * price n + INR C * ln 2).
  Proof.
    intros r evs (q & t & Ht & HL & HC & Hq & E) Hev Hpos.
    assert (Er : Rprod (map r evs) = Rprod (map (fun v => Rprod (map (q v) (sel (recent D) v evs))) (leaves K [] t)))
      by (rewrite <- (tree_by_leaf q t evs Ht Hev); apply Rprod_map_ext; intros e _; apply E).
    rewrite Er in *.
    assert (Hev2 : Forall (fun e => ok_event A okh okw e /\ incl (ev_hist e) K) evs)
      by (eapply Forall_impl; [|exact Hev]; intros e [He Hh]; split; [exact (Hok e He)|exact Hh]).
    destruct (ctw_total_mixture M fresh binary A okh okw Inv K D HS Hfresh HK H0 HB HD evs Hev2) as (s & l & Hr & _).
    pose proof (ctw_total_regret M fresh binary A okh okw Inv K D HS Hfresh HK H0 HB HD evs t s l Hev2 Ht Hr) as Hreg.
    rewrite (seq_prob_run _ _ _ _ _ Hr), ln_exp. set (N := length evs).
    set (P := Rprod (map (fun v => Rprod (map (q v) (sel (recent D) v evs))) (leaves K [] t))) in *.
    assert (Hle : P * exp (- (INR (length (leaves K [] t)) * price N)) <= tree_prob M fresh (recent D) K [] t evs).
    { unfold P. rewrite (tree_prob_leaves K (recent D) M fresh D evs t [] Ht).
      replace (- (INR (length (leaves K [] t)) * price N)) with (Rsum (map (fun _ => - price N) (leaves K [] t))) by (rewrite Rsum_const; ring).
      rewrite <- Rprod_exp, <- Rprod_map_mult. apply Rprod_le. intros v _.
      assert (Hn : 0 <= Rprod (map (q v) (sel (recent D) v evs))) by (apply Rprod_nonneg; intros e; apply Hsrc0, Hq).
      split; [apply Rmult_le_pos; [exact Hn|left; apply exp_pos]|].
      assert (Hs : Forall ok (sel (recent D) v evs)) by (apply sel_forall; eapply Forall_impl; [|exact Hev]; intros e [He _]; exact He).
      pose proof (steps_seq_prob_pos M A okh okw Inv HS fresh (sel (recent D) v evs) Hfresh ltac:(eapply Forall_impl; [|exact Hs]; exact Hok)) as Hp.
      change (node_prob M fresh (recent D) v evs) with (seq_prob M fresh (sel (recent D) v evs)).
      destruct (Rle_lt_or_eq_dec _ _ Hn) as [Hn1|Hn1]; [|rewrite <- Hn1; lra].
      pose proof (Hlearn (q v) _ (Hq v) Hs Hn1) as HL1. pose proof (Hmono _ _ (sel_length (recent D) v evs)) as HM.
      rewrite <- (exp_ln _ Hn1), <- exp_plus, <- (exp_ln (seq_prob M fresh _)) by exact Hp.
      apply KTRedundancy.exp_le_mono. unfold N. lra. }
    apply KTRedundancy.ln_le in Hle; [|apply Rmult_lt_0_compat; [exact Hpos|apply exp_pos]].
    rewrite ln_mult, ln_exp in Hle by (auto using exp_pos).
    apply le_INR in HL. apply le_INR in HC. pose proof ln2_pos as H2. pose proof (Hprice N) as HN.
    pose proof (Rmult_le_compat_r _ _ _ HN HL). pose proof (Rmult_le_compat_r _ _ _ (Rlt_le _ _ H2) HC). lra.
  Qed.
  (** FMN and PTW over CTW over the learner *)
  Variables (cps : list nat) (m : nat).
  Hypothesis Hcps : Forall (fun c => c mod 2 ^ m = 0)%nat cps.
  Let CM := CTW_model M fresh binary.
  Let cfresh := ctw_init fresh (Z.of_nat D).

  Section sources.
  Context (L C : nat) (q : nat -> event -> R) (evs : list event).
  Hypothesis Hq : forall t, tree_of src K D L C (q t).
  Hypothesis Hch : changes_only q cps.
  Hypothesis Hev : Forall after evs.
  Hypothesis Hpos : 0 < source_prob q 0 evs.
  Let n := length evs.
  Let d := levels m n.
  Let c := length cps.

  Lemma after_ok e : after e -> ok_event A (okhK okh K) okw e.
  Proof. intros [He Hh]. destruct (Hok e He) as (G1 & G2 & G3). split; [exact G1|]. split; [split; [exact G2|exact Hh]|exact G3]. Qed.
  Lemma tree_mono a b : (a <= b)%nat -> INR L * price a + INR C * ln 2 <= INR L * price b + INR C * ln 2.
  Proof. intros Hab. pose proof (Rmult_le_compat_l _ _ _ (pos_INR L) (Hmono a b Hab)). lra. Qed.
  Lemma tree_price i : 0 <= INR L * price i + INR C * ln 2.
  Proof. pose proof (Rmult_le_pos _ _ (pos_INR L) (Hprice i)). pose proof (Rmult_le_pos _ _ (pos_INR C) (Rlt_le _ _ ln2_pos)). lra. Qed.
  Lemma tree_src0 t e : 0 <= q t e.
  Proof. destruct (Hq t) as (p & tr & _ & _ & _ & Hp & E). rewrite E. apply Hsrc0, Hp. Qed.

  Theorem ptw_ctw_learner :
    exists s l, run (PTW_model CM m cfresh) (ptw_init m cfresh) evs = Ok (s, l) /\
      - l <= - ln (source_prob q 0 evs) + INR (1 + c * d) * (INR L * price n + INR C * ln 2) + INR (1 + 2 * c * d) * ln 2 + INR (pred d) * ln (3 / 2).
  Proof.
    exact (ptw_tracks CM A (okhK okh K) okw _ (ctw_steps M fresh binary A okh okw Inv K D HS Hfresh HK H0 HB HD)
      cfresh (ctw_inv_init _ _ _ _ _ _ _) (tree_of src K D L C) (fun n => INR L * price n + INR C * ln 2) _ after_ok (ctw_of_learner L C) tree_mono tree_price
      q tree_src0 Hq cps Hch m Hcps evs Hev Hpos).
  Qed.

  Theorem fmn_ctw_learner :
    exists s0 s l, fmn_init (LogStore_class _) m cfresh = Ok s0 /\ run (FMN_model CM (LogStore_class _) m) s0 evs = Ok (s, l) /\
      - l <= - ln (source_prob q 0 evs) + INR (1 + c * d) * (INR L * price n + INR C * ln 2 + ln (INR (Nat.log2 (1 + n / 2 ^ m) + 1)))
             + INR (1 + 2 * c * d) * ln 2 + INR (pred d) * ln (3 / 2).
  Proof.
    exact (fmn_tracks CM A (okhK okh K) okw _ (ctw_steps M fresh binary A okh okw Inv K D HS Hfresh HK H0 HB HD)
      cfresh (ctw_inv_init _ _ _ _ _ _ _) (tree_of src K D L C) (fun n => INR L * price n + INR C * ln 2) _ after_ok (ctw_of_learner L C) tree_mono tree_price
      q tree_src0 Hq cps Hch m Hcps evs Hev Hpos).
  Qed.
  End sources.
End ctw.

(** ** KT *)
Section kt.
  Variable A : list Z.
  Hypothesis HA : NoDup A.
  Let k := length A.
  Hypothesis Hk : (2 <= k)%nat.
  Let Hne : A <> [] := A_ne A Hk.

  Lemma symbol_ok e : symbol_of A e -> ok_event A any_hist nonneg e.
  Proof. intros [H1 H2]. split; [exact H1|]. split; [exact I|]. rewrite H2. unfold nonneg. lra. Qed.
  Lemma memoryless_nonneg r e : memoryless A r -> 0 <= r e.
  Proof. intros (theta & [H _] & E). rewrite E. apply H. Qed.

  Variables (cps : list nat) (m : nat).
  Hypothesis Hcps : Forall (fun c => c mod 2 ^ m = 0)%nat cps.

  Theorem ptw_of_kt q evs : (forall t, memoryless A (q t)) -> changes_only q cps -> Forall (symbol_of A) evs -> 0 < source_prob q 0 evs ->
    let n := length evs in let d := levels m n in let c := length cps in
    exists s l, run (PTW_model KT_model m (kt_init A)) (ptw_init m (kt_init A)) evs = Ok (s, l) /\
      - l <= - ln (source_prob q 0 evs) + INR (1 + c * d) * learn_any k n + INR (1 + 2 * c * d) * ln 2 + INR (pred d) * ln (3 / 2).
  Proof.
    intros Hq Hch Hev Hpos n d c.
    exact (ptw_tracks KT_model A any_hist nonneg (kt_inv A) (law_step _ _ _ _ _ (kt_lawful A)) (kt_init A) (kt_inv_init A HA Hne)
      (memoryless A) (learn_any k) (symbol_of A) symbol_ok (kt_learns A HA Hk) (learn_any_mono A Hk) (learn_any_nonneg A Hk)
      q (fun t e => memoryless_nonneg (q t) e (Hq t)) Hq cps Hch m Hcps evs Hev Hpos).
  Qed.

  Theorem fmn_of_kt q evs : (forall t, memoryless A (q t)) -> changes_only q cps -> Forall (symbol_of A) evs -> 0 < source_prob q 0 evs ->
    let n := length evs in let d := levels m n in let c := length cps in
    exists s0 s l, fmn_init (LogStore_class _) m (kt_init A) = Ok s0 /\ run (FMN_model KT_model (LogStore_class _) m) s0 evs = Ok (s, l) /\
      - l <= - ln (source_prob q 0 evs) + INR (1 + c * d) * (learn_any k n + ln (INR (Nat.log2 (1 + n / 2 ^ m) + 1)))
             + INR (1 + 2 * c * d) * ln 2 + INR (pred d) * ln (3 / 2).
  Proof.
    intros Hq Hch Hev Hpos n d c.
    exact (fmn_tracks KT_model A any_hist nonneg (kt_inv A) (law_step _ _ _ _ _ (kt_lawful A)) (kt_init A) (kt_inv_init A HA Hne)
      (memoryless A) (learn_any k) (symbol_of A) symbol_ok (kt_learns A HA Hk) (learn_any_mono A Hk) (learn_any_nonneg A Hk)
      q (fun t e => memoryless_nonneg (q t) e (Hq t)) Hq cps Hch m Hcps evs Hev Hpos).
  Qed.

  (** CTW over KT *)
  Variables (binary : bool) (K : list Z) (D : nat).
  Hypothesis HK : NoDup K.
  Hypothesis H0 : In 0%Z K.
  Hypothesis HB : binary = true -> incl K [0; 1]%Z.
  Hypothesis HD : (0 < D)%nat.
  Let CM := CTW_model KT_model (kt_init A) binary.
  Let fresh := ctw_init (kt_init A) (Z.of_nat D).

  Theorem ctw_of_kt L C :
    learns CM fresh (fun e => symbol_of A e /\ incl (ev_hist e) K) (tree_of (memoryless A) K D L C) (fun n => INR L * learn_any k n + INR C * ln 2).
  Proof.
    exact (ctw_of_learner KT_model A any_hist nonneg (kt_inv A) (law_step _ _ _ _ _ (kt_lawful A)) (kt_init A) (kt_inv_init A HA Hne)
      (memoryless A) (learn_any k) (symbol_of A) symbol_ok (kt_learns A HA Hk) (learn_any_mono A Hk) (learn_any_nonneg A Hk)
      memoryless_nonneg binary K D HK H0 HB HD L C).
  Qed.

  Theorem fmn_of_ctw_kt L C q evs : (forall t, tree_of (memoryless A) K D L C (q t)) -> changes_only q cps ->
    Forall (fun e => symbol_of A e /\ incl (ev_hist e) K) evs -> 0 < source_prob q 0 evs ->
    let n := length evs in let d := levels m n in let c := length cps in
    exists s0 s l, fmn_init (LogStore_class _) m fresh = Ok s0 /\ run (FMN_model CM (LogStore_class _) m) s0 evs = Ok (s, l) /\
      - l <= - ln (source_prob q 0 evs) + INR (1 + c * d) * (INR L * learn_any k n + INR C * ln 2 + ln (INR (Nat.log2 (1 + n / 2 ^ m) + 1)))
             + INR (1 + 2 * c * d) * ln 2 + INR (pred d) * ln (3 / 2).
  Proof.
    intros Hq Hch Hev Hpos n d c.
    exact (fmn_ctw_learner KT_model A any_hist nonneg (kt_inv A) (law_step _ _ _ _ _ (kt_lawful A)) (kt_init A) (kt_inv_init A HA Hne)
      (memoryless A) (learn_any k) (symbol_of A) symbol_ok (kt_learns A HA Hk) (learn_any_mono A Hk) (learn_any_nonneg A Hk)
      memoryless_nonneg binary K D HK H0 HB HD cps m Hcps L C q evs Hq Hch Hev Hpos).
  Qed.
End kt.

(** ** SAD *)
Section sad.
  Variable A : list Z.
  Hypothesis HA : NoDup A.
  Hypothesis Hne : A <> [].
  Let k := length A.
  Let fresh := sad_init (Z.of_nat k).

  Lemma symbol_positive e : symbol_of A e -> ok_event A any_hist positive e.
  Proof. intros [H1 H2]. split; [exact H1|]. split; [exact I|]. rewrite H2. unfold positive. lra. Qed.

  Variables (cps : list nat) (m : nat).
  Hypothesis Hcps : Forall (fun c => c mod 2 ^ m = 0)%nat cps.

  Theorem ptw_of_sad q evs : (forall t, memoryless A (q t)) -> changes_only q cps -> Forall (symbol_of A) evs -> 0 < source_prob q 0 evs ->
    let n := length evs in let d := levels m n in let c := length cps in
    exists s l, run (PTW_model SAD_model m fresh) (ptw_init m fresh) evs = Ok (s, l) /\
      - l <= - ln (source_prob q 0 evs) + INR (1 + c * d) * sad_learn k n + INR (1 + 2 * c * d) * ln 2 + INR (pred d) * ln (3 / 2).
  Proof.
    intros Hq Hch Hev Hpos n d c.
    exact (ptw_tracks SAD_model A any_hist positive (sad_inv A) (sad_steps A any_hist) fresh (sad_inv_init A HA)
      (memoryless A) (sad_learn k) (symbol_of A) symbol_positive (sad_learns A HA Hne) (sad_learn_mono A HA Hne) (sad_learn_nonneg A HA Hne)
      q (fun t e => memoryless_nonneg A (q t) e (Hq t)) Hq cps Hch m Hcps evs Hev Hpos).
  Qed.

  Variables (binary : bool) (K : list Z) (D : nat).
  Hypothesis HK : NoDup K.
  Hypothesis H0 : In 0%Z K.
  Hypothesis HB : binary = true -> incl K [0; 1]%Z.
  Hypothesis HD : (0 < D)%nat.
  Let CM := CTW_model SAD_model fresh binary.
  Let cfresh := ctw_init fresh (Z.of_nat D).

  Theorem ctw_of_sad L C :
    learns CM cfresh (fun e => symbol_of A e /\ incl (ev_hist e) K) (tree_of (memoryless A) K D L C) (fun n => INR L * sad_learn k n + INR C * ln 2).
  Proof.
    exact (ctw_of_learner SAD_model A any_hist positive (sad_inv A) (sad_steps A any_hist) fresh (sad_inv_init A HA)
      (memoryless A) (sad_learn k) (symbol_of A) symbol_positive (sad_learns A HA Hne) (sad_learn_mono A HA Hne) (sad_learn_nonneg A HA Hne)
      (memoryless_nonneg A) binary K D HK H0 HB HD L C).
  Qed.

  Theorem fmn_of_ctw_sad L C q evs : (forall t, tree_of (memoryless A) K D L C (q t)) -> changes_only q cps ->
    Forall (fun e => symbol_of A e /\ incl (ev_hist e) K) evs -> 0 < source_prob q 0 evs ->
    let n := length evs in let d := levels m n in let c := length cps in
    exists s0 s l, fmn_init (LogStore_class _) m cfresh = Ok s0 /\ run (FMN_model CM (LogStore_class _) m) s0 evs = Ok (s, l) /\
      - l <= - ln (source_prob q 0 evs) + INR (1 + c * d) * (INR L * sad_learn k n + INR C * ln 2 + ln (INR (Nat.log2 (1 + n / 2 ^ m) + 1)))
             + INR (1 + 2 * c * d) * ln 2 + INR (pred d) * ln (3 / 2).
  Proof.
    intros Hq Hch Hev Hpos n d c.
    exact (fmn_ctw_learner SAD_model A any_hist positive (sad_inv A) (sad_steps A any_hist) fresh (sad_inv_init A HA)
      (memoryless A) (sad_learn k) (symbol_of A) symbol_positive (sad_learns A HA Hne) (sad_learn_mono A HA Hne) (sad_learn_nonneg A HA Hne)
      (memoryless_nonneg A) binary K D HK H0 HB HD cps m Hcps L C q evs Hq Hch Hev Hpos).
  Qed.
End sad.
