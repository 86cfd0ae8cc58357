(** PTW and FMN over CTW; CTW over PTW. *)
From Coq Require Import Lra.
From Verif Require Import Model.KT Model.CTW Model.PTW Model.FMN Spec.CombinedSpec Spec.PTWSpec Spec.FMNSpec.
From Verif Require Import Proofs.RealFacts Proofs.PyFacts Proofs.ProbFacts Proofs.KTFacts Proofs.KTBinFacts Proofs.KTRedundancy.
From Verif Require Import Proofs.PTWFacts Proofs.PTWMixture Proofs.PTWTop Proofs.PTWProps Proofs.PTWNorm.
From Verif Require Import Proofs.CTWFacts Proofs.CTWMixture Proofs.CTWTop Proofs.CTWProps.
From Verif Require Import Proofs.SourceFacts Proofs.SourceProps Proofs.SourceCTW Proofs.CombinedFacts.
Open Scope R_scope.

Lemma coin_range theta x : 0 <= theta <= 1 -> 0 <= coin theta x.
Proof. unfold coin. destruct (x =? 1)%Z; lra. Qed.

Lemma ln2_pos : 0 < ln 2.
Proof. rewrite <- ln_1. apply ln_increasing; lra. Qed.

Lemma tree_sources_nonneg K D L C r e : tree_sources K D L C r -> 0 <= r e.
Proof. intros (theta & t & _ & _ & _ & Hth & E). rewrite E. apply coin_range, Hth. Qed.

Lemma bits_after K evs : Forall (bit_after K) evs -> unit_bits evs /\ Forall (fun e => incl (ev_hist e) K) evs.
Proof. intros H. split; (eapply Forall_impl; [|exact H]); intros e [He Hi]; assumption. Qed.

Definition tree_price (L C : nat) (n : nat) : R := INR L * learn n + INR C * ln 2.

Lemma tree_price_mono L C a b : (a <= b)%nat -> tree_price L C a <= tree_price L C b.
Proof. intros H. unfold tree_price. pose proof (learn_mono _ _ H). pose proof (pos_INR L). nra. Qed.
Lemma tree_price_nonneg L C n : 0 <= tree_price L C n.
Proof. unfold tree_price. pose proof (learn_nonneg n). pose proof (pos_INR L). pose proof (pos_INR C). pose proof ln2_pos. nra. Qed.

Lemma sel_length ctx v evs : (length (sel ctx v evs) <= length evs)%nat.
Proof. unfold sel. apply filter_length_le'. Qed.

Section ctw.
  Variables (binary : bool) (K : list Z) (D : nat).
  Hypothesis HK : NoDup K.
  Hypothesis H0 : In 0%Z K.
  Hypothesis HB : binary = true -> incl K [0; 1]%Z.
  Hypothesis HD : (0 < D)%nat.
  Notation CM := (CTW_model KTB_model ktb_init binary).
  Notation fresh := (ctw_init ktb_init (Z.of_nat D)).

  Lemma ctw_learns L C : learns CM fresh (bit_after K) (tree_sources K D L C) (tree_price L C).
  Proof.
    intros r evs (theta & t & Ht & HL & HC & Hth & E) Hev Hpos. destruct (bits_after _ _ Hev) as [Hu Hh].
    assert (Er : Rprod (map r evs) = tree_source K theta D t evs) by (apply Rprod_map_ext; intros e _; apply E).
    rewrite Er in *.
    destruct (ctw_tree_source binary K D theta t evs HK H0 HB HD Ht Hth Hu Hh Hpos) as (s & l & Hr & Hl).
    rewrite (seq_prob_run _ _ _ _ _ Hr), ln_exp. unfold tree_price.
    assert (HS : Rsum (map (fun v => learn (length (sel (recent D) v evs))) (leaves K [] t)) <= INR L * learn (length evs)).
    { eapply Rle_trans; [apply Rsum_le; intros v _; apply learn_mono, sel_length|].
      rewrite Rsum_const. apply Rmult_le_compat_r; [apply learn_nonneg|apply le_INR, HL]. }
    pose proof ln2_pos. apply le_INR in HC. nra.
  Qed.

  Lemma ctw_ok e : bit_after K e -> ok_event [0; 1]%Z (okhK any_hist K) nonneg e.
  Proof.
    intros [[Hs Hw] Hh]. split; [|split].
    - cbn. destruct Hs as [->| ->]; auto.
    - split; [exact I|exact Hh].
    - rewrite Hw. unfold nonneg. lra.
  Qed.

  Lemma ctw_steps_here : steps CM [0; 1]%Z (okhK any_hist K) nonneg (ctw_inv KTB_model ktb_init [0; 1]%Z any_hist nonneg K D).
  Proof. exact (ctw_steps KTB_model ktb_init binary [0; 1]%Z any_hist nonneg ktb_inv K D (law_step _ _ _ _ _ ktb_lawful) ktb_inv_init HK H0 HB HD). Qed.

  (** The updates of PTW over CTW are a probability measure. *)
  Lemma ptw_of_ctw_measure m evs h : Forall (bit_after K) evs -> incl h K ->
    exists s l, run (PTW_model CM m fresh) (ptw_init m fresh) evs = Ok (s, l) /\
      Rsum (map (fun a => upd_prob (ptw_update CM m fresh) s a h 1) [0; 1]%Z) = 1.
  Proof.
    intros Hev Hh. pose proof (ctw_lawful KTB_model ktb_init binary [0; 1]%Z any_hist nonneg ktb_inv K D (law_step _ _ _ _ _ ktb_lawful)
      ktb_inv_init HK H0 HB HD ktb_lawful ltac:(unfold nonneg; lra)) as HC.
    assert (Hok : Forall (ok_event [0; 1]%Z (okhK any_hist K) nonneg) evs) by (eapply Forall_impl; [|exact Hev]; exact ctw_ok).
    destruct (ptw_feed CM _ _ _ _ ctw_steps_here (fun _ => fresh) (fun _ => ctw_inv_init _ _ _ _ _ _ _) m evs Hok) as (s & Hf & _).
    exists s, (pt_lp s). split; [rewrite <- Hf; symmetry; exact (PTWFacts.feed_const (PTW_model CM m fresh) 0 _ evs)|].
    exact (ptw_update_norm CM _ _ _ _ HC (fun _ => fresh) (fun _ => ctw_inv_init _ _ _ _ _ _ _) m evs s (pt_lp s) h 1 Hok (conj I Hh)
      ltac:(unfold nonneg; lra) Hf).
  Qed.

  Variables (L C : nat) (q : nat -> event -> R) (cps : list nat) (m : nat).
  Hypothesis Hsrc : forall t, tree_sources K D L C (q t).
  Hypothesis Hch : changes_only q cps.
  Hypothesis Hcps : Forall (fun c => c mod 2 ^ m = 0)%nat cps.

  Lemma ptw_of_ctw evs : Forall (bit_after K) evs -> 0 < source_prob q 0 evs ->
    let d := levels m (length evs) in let k := length cps in
    exists s l, run (PTW_model CM m fresh) (ptw_init m fresh) evs = Ok (s, l) /\
      - l <= - ln (source_prob q 0 evs) + INR (1 + k * d) * (INR L * learn (length evs) + INR C * ln 2)
             + INR (1 + 2 * k * d) * ln 2 + INR (pred d) * ln (3 / 2).
  Proof.
    intros Hev Hpos.
    exact (ptw_tracks CM _ _ _ _ ctw_steps_here fresh (ctw_inv_init _ _ _ _ _ _ _) (tree_sources K D L C) (tree_price L C) (bit_after K)
      ctw_ok (ctw_learns L C) (tree_price_mono L C) (tree_price_nonneg L C) q (fun t e => tree_sources_nonneg K D L C (q t) e (Hsrc t)) Hsrc cps Hch m Hcps evs Hev Hpos).
  Qed.

  Lemma fmn_of_ctw evs : Forall (bit_after K) evs -> 0 < source_prob q 0 evs ->
    let n := length evs in let d := levels m n in let k := length cps in
    exists s0 s l, fmn_init (LogStore_class _) m fresh = Ok s0 /\
      run (FMN_model CM (LogStore_class _) m) s0 evs = Ok (s, l) /\
      - l <= - ln (source_prob q 0 evs)
             + INR (1 + k * d) * (INR L * learn n + INR C * ln 2 + ln (INR (Nat.log2 (1 + n / 2 ^ m) + 1)))
             + INR (1 + 2 * k * d) * ln 2 + INR (pred d) * ln (3 / 2).
  Proof.
    intros Hev Hpos.
    exact (fmn_tracks CM _ _ _ _ ctw_steps_here fresh (ctw_inv_init _ _ _ _ _ _ _) (tree_sources K D L C) (tree_price L C) (bit_after K)
      ctw_ok (ctw_learns L C) (tree_price_mono L C) (tree_price_nonneg L C) q (fun t e => tree_sources_nonneg K D L C (q t) e (Hsrc t)) Hsrc cps Hch m Hcps evs Hev Hpos).
  Qed.
End ctw.

(** ** Base models of which only update is used: log_predict is replaced by what update would return. *)
Definition by_update {S} (M : model S) : model S :=
  Model (m_update M) (fun s a h => do (_, l) <- m_update M s a h 1; Ok l).

Lemma by_update_seq {S} (M : model S) evs : forall s, seq_prob (by_update M) s evs = seq_prob M s evs.
Proof. reflexivity. Qed.

Lemma by_update_ctw {S} (M : model S) fresh binary evs : forall s,
  run (CTW_model (by_update M) fresh binary) s evs = run (CTW_model M fresh binary) s evs.
Proof. reflexivity. Qed.

Section base.
  Context {St : Type} (M : model St) (A : list Z) (okh : list Z -> Prop) (Inv : St -> Prop).
  Notation one := (fun w : R => w = 1).
  Hypothesis HL : lawful M A okh one Inv.
  Variable fresh : St.
  Hypothesis Hfresh : Inv fresh.
  Variable m : nat.

  Definition ptw_inv (s : ptw (S := St)) : Prop :=
    exists evs l, Forall (ok_event A okh one) evs /\ run (PTW_model M m fresh) (ptw_init m fresh) evs = Ok (s, l).

  Lemma ptw_inv_init : ptw_inv (ptw_init m fresh).
  Proof. exists [], 0. split; [constructor|reflexivity]. Qed.

  Lemma fed evs : feed (fun t => ptw_update M m ((fun _ => fresh) t)) 0 (ptw_init m ((fun _ => fresh) 0%nat)) evs =
    run (PTW_model M m fresh) (ptw_init m fresh) evs.
  Proof. exact (PTWFacts.feed_const (PTW_model M m fresh) 0 _ evs). Qed.

  Lemma ptw_steps : steps (by_update (PTW_model M m fresh)) A okh one ptw_inv.
  Proof.
    intros s a h w (evs & l & Hev & Hr) Ha Hh ->.
    pose proof (law_step _ _ _ _ _ HL) as HS. rewrite <- fed in Hr.
    destruct (feed_rep M A okh one Inv HS (fun _ => fresh) (fun _ => Hfresh) m evs s l Hev Hr) as [Hrep _].
    destruct (ptw_step M A okh one Inv HS (fun _ => fresh) (fun _ => Hfresh) m s evs (Event a h 1) Hrep Hev (conj Ha (conj Hh eq_refl)))
      as (s' & Hu & _). cbn [ev_sym ev_hist ev_wt] in Hu.
    exists s', (pt_lp s' - pt_lp s). split; [exact Hu|]. split.
    - cbn [by_update m_logp PTW_model m_update] in *. rewrite Hu. reflexivity.
    - exists (evs ++ [Event a h 1]). eexists. split; [apply Forall_app; split; [exact Hev|repeat constructor; assumption]|].
      rewrite <- fed. eapply feed_snoc; [exact Hr|exact Hu].
  Qed.

  Lemma ptw_lawful : lawful (by_update (PTW_model M m fresh)) A okh one ptw_inv.
  Proof.
    split; [exact ptw_steps|]. intros s h (evs & l & Hev & Hr) Hh. rewrite <- fed in Hr.
    rewrite <- (ptw_update_norm M A okh one Inv HL (fun _ => fresh) (fun _ => Hfresh) m evs s l h 1 Hev Hh eq_refl Hr).
    apply Rsum_map_ext. intros a _. unfold pred_prob, upd_prob. cbn [by_update m_logp PTW_model m_update].
    destruct (ptw_update M m fresh s a h 1) as [[s' x]|]; reflexivity.
  Qed.
End base.
