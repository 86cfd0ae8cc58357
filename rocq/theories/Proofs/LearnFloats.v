(** KT over any alphabet, and FMN over CTW over it, computed with rounding, against sources over the alphabet. *)
From Coq Require Import Lra Lia.
From Verif Require Import Spec.LearnSpec Spec.FloatsNestSpec Spec.ACSpec Spec.SeqSpec Spec.PTWSpec.
From Verif Require Import Proofs.RealFacts Proofs.PyFacts Proofs.ProbFacts Proofs.KTFacts Proofs.KTRedundancy Proofs.CTWProps Proofs.CombinedFacts Proofs.CombinedTop Proofs.FloatsKTAny Proofs.FloatsAnyTop Proofs.FloatsFMNDrift Proofs.FloatsTracks Proofs.LearnEst Proofs.LearnTop.
Open Scope R_scope.

Section any.
  Context (F : floats) (u big : R) (max : nat).
  Hypothesis HF : accurate F u big max.
  Hypothesis Hu : 0 <= u <= / 64.
  Variable tiny : R.
  Hypothesis HQ : divides F u tiny.
  Variable A : list Z.
  Hypothesis HA : NoDup A.
  Let k := length A.
  Hypothesis Hk : (2 <= k)%nat.
  Let Hne : A <> [] := A_ne A Hk.
  Variables (seq h : list Z).
  Hypothesis Hs : incl seq A.
  Hypothesis Hsn : seq <> [].
  Let n := length seq.
  Let evs := events_from h seq 1.

  Lemma symbol_one e : symbol_of A e -> ok_event A any_hist (eq 1) e.
  Proof. intros [H1 H2]. split; [exact H1|]. split; [exact I|symmetry; exact H2]. Qed.
  Lemma symbol_events : Forall (symbol_of A) evs.
  Proof. eapply Forall_impl; [|exact (any_events A seq h Hs)]. intros e (H1 & _ & H2). split; [exact H1|symmetry; exact H2]. Qed.

  Theorem fkt_learns theta : distribution A theta -> 0 < Rprod (map theta seq) ->
    32 * (INR n + INR k) * u <= 1 -> tiny <= / (2 * INR k * INR n) -> 2 * INR n + 4 <= big ->
    INR n * kt_worst k n + 2 <= big -> let loss := INR n * (kt_off u k n + u * (INR n * kt_worst k n + 2)) in loss <= 1 ->
    exists f1 x v, fkt_init F A = Ok f1 /\ fp_update_seq F (FKT_model F) f1 seq h 1 = Ok (x, h, v) /\
      - v <= - ln (Rprod (map theta seq)) + ((INR k - 1) / 2 * ln (INR n) + INR k * ln (INR k) + / 8) + loss.
  Proof.
    intros Hd Hpos H1 H2 H3 H4 loss H5. assert (Hn : (0 < n)%nat) by (unfold n; destruct seq; [congruence|cbn; lia]).
    destruct (kt_steady F u big tiny max HF HQ Hu A n HA Hne Hn H1 H2 H3) as (f1 & Hf & HT).
    assert (E : Rprod (map (fun e => theta (ev_sym e)) evs) = Rprod (map theta seq)).
    { unfold evs. rewrite <- (map_map ev_sym theta), events_syms. reflexivity. }
    destruct (learn_total F u big max HF Hu (FKT_model F) KT_model f1 (kt_init A) A any_hist (memoryless A) (learn_any k) (symbol_of A) symbol_one
      (kt_learns A HA Hk) seq h symbol_events Hsn _ _ _ (fun e => theta (ev_sym e)) HT (L_pos u tiny A n HA Hne Hn H1 H2) (off_pos u tiny Hu A n HA Hne Hn H1 H2) H4 H5)
      as (x & v & Ex & Hv).
    - exists theta. split; [exact Hd|reflexivity].
    - fold evs. rewrite E. exact Hpos.
    - exists f1, x, v. split; [exact Hf|]. split; [exact Ex|]. fold evs n k loss in Hv. rewrite E in Hv. unfold learn_any in Hv.
      destruct n as [|n']; [lia|exact Hv].
  Qed.

  Variables (K : list Z) (D : nat).
  Hypothesis HN : NoDup K.
  Hypothesis HK : In 0%Z K.
  Hypothesis HD : (0 < D)%nat.
  Hypothesis Hsk : incl seq K.
  Hypothesis Hh : incl h K.
  Variables (Lv Cs : nat) (q : nat -> event -> R) (cps : list nat) (m : nat).
  Hypothesis Hsrc : forall t, tree_of (memoryless A) K D Lv Cs (q t).
  Hypothesis Hch : changes_only q cps.
  Hypothesis Hcps : Forall (fun c => c mod 2 ^ m = 0)%nat cps.
  Hypothesis Hpos : 0 < source_prob q 0 evs.

  Let ok := fun e => symbol_of A e /\ incl (ev_hist e) K.
  Lemma after_one e : ok e -> ok_event A (okctx any_hist K) (eq 1) e.
  Proof. intros [H Hi]. destruct (symbol_one e H) as (H1 & _ & H2). split; [exact H1|]. split; [split; [exact I|exact Hi]|exact H2]. Qed.
  Lemma after_evs : Forall ok evs.
  Proof.
    eapply Forall_impl; [|exact (alpha_events A K seq h Hs Hsk Hh)]. intros e (H1 & [_ H2] & H3). split; [|exact H2]. split; [exact H1|symmetry; exact H3].
  Qed.

  Theorem fmn_ctw_any : let d := levels m n in let c := length cps in let keeps := (Nat.log2 (n + 1) + 1)%nat in
    let L := kt_worst k (2 * n) in let eps := ctw_off u (2 * n) D L (kt_off u k (2 * n)) in
    roomy u big tiny k D (2 * n) -> fmn_room u big max n keeps L eps ->
    exists f1 s0 s v, fkt_init F A = Ok f1 /\
      let C := LogStore_class _ in ffmn_init F C m (ctw_init f1 (Z.of_nat D)) = Ok s0 /\
      fp_update_seq F (FFMN_model F (FCTW_model F (FKT_model F) f1 false) C m) s0 seq h 1 = Ok (s, h, v) /\
      - v <= - ln (source_prob q 0 evs) + INR (1 + c * d) * (INR Lv * learn_any k n + INR Cs * ln 2 + ln (INR keeps))
             + INR (1 + 2 * c * d) * ln 2 + INR (pred d) * ln (3 / 2) + INR n * (23 * fmn_loss u n keeps L eps + 2 * eps).
  Proof.
    intros d c keeps L eps HR HM. assert (Hn : (0 < n)%nat) by (unfold n; destruct seq; [congruence|cbn; lia]).
    destruct (ctw_kt_steady F u big max HF Hu tiny HQ A HA Hne K D HN HK HD (2 * n) ltac:(lia) HR) as (f1 & close & Hf & HT & Inv & HS & HI).
    exists f1. pose proof ln2_pos as H2.
    assert (Hmono : forall a b, (a <= b)%nat -> INR Lv * learn_any k a + INR Cs * ln 2 <= INR Lv * learn_any k b + INR Cs * ln 2).
    { intros a b Hab. pose proof (Rmult_le_compat_l _ _ _ (pos_INR Lv) (learn_any_mono A Hk a b Hab)) as H. fold k in H. lra. }
    assert (Hpr : forall i, 0 <= INR Lv * learn_any k i + INR Cs * ln 2).
    { intros i. pose proof (Rmult_le_pos _ _ (pos_INR Lv) (learn_any_nonneg A Hk i)) as G1. fold k in G1.
      pose proof (Rmult_le_pos _ _ (pos_INR Cs) (Rlt_le _ _ H2)). lra. }
    assert (Hq0 : forall t e, 0 <= q t e).
    { intros t e. destruct (Hsrc t) as (p & tr & _ & _ & _ & Hp & E). rewrite E. apply (memoryless_nonneg A), Hp. }
    pose proof HR as (G1 & G2 & _).
    destruct (ffmn_tracks F u big max HF Hu _ _ _ _ A (okctx any_hist K) Inv HS (HI _ _ _ (sd_new _ _ _ _ _ _ _ _ _ _ HT)) (tree_of (memoryless A) K D Lv Cs)
      (fun n => INR Lv * learn_any k n + INR Cs * ln 2) ok after_one (ctw_of_kt A HA Hk false K D HN HK ltac:(discriminate) HD Lv Cs) Hmono Hpr
      seq h after_evs Hsn q Hq0 Hsrc cps Hch m Hcps Hpos _ _ close HT
      (L_pos u tiny A (2 * n) HA Hne ltac:(lia) G1 G2) (off_nonneg u big Hu tiny A HA Hne D (2 * n) ltac:(lia) HR) HM) as (s0 & s & v & E0 & Es & Hv).
    exists s0, s, v. split; [exact Hf|]. split; [exact E0|]. split; [exact Es|exact Hv].
  Qed.
End any.
