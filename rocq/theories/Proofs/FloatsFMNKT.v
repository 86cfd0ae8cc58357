(** FMN with rounding over KTBinary and over CTW_KT. *)
From Coq Require Import Lra Lia.
From Verif Require Import Spec.FloatsFMNSpec.
From Verif Require Import Proofs.RealFacts Proofs.PyFacts Proofs.ProbFacts Proofs.KTRedundancy Proofs.KTFacts Proofs.KTBinFacts Proofs.CTWTop Proofs.StoreFacts Proofs.UniformFacts Proofs.PTWMixture Proofs.PTWNorm Proofs.SeqFacts.
From Verif Require Import Proofs.FMNFacts Proofs.FMNProps Proofs.PomdpCTW Proofs.FloatsFacts Proofs.FloatsCTW Proofs.FloatsPTW Proofs.FloatsChop Proofs.FloatsFMNFacts Proofs.FloatsFMNTop.
Open Scope R_scope.

Lemma in_bits a : In a [0; 1]%Z -> bit a.
Proof. intros [<- | [<- | []]]; unfold bit; auto. Qed.

Lemma most_pos n : 0 <= kt_most n.
Proof. unfold kt_most. rewrite <- ln_1. pose proof (pos_INR n). apply ln_le; lra. Qed.

Section bases.
  Context (F : floats) (u big : R) (max : nat).
  Hypothesis HF : accurate F u big max.
  Hypothesis Hu : 0 <= u <= / 64.
  Variable n : nat.
  Hypothesis Hn : (0 < n)%nat.
  Hypothesis Hmax : (2 * n + 2 <= max)%nat.
  Let L := ln (2 * INR n + 2).
  Let B := INR n * L + 2.

  Definition ktb_same (i : nat) (x y : ktb) : Prop :=
    exists j k, x = [INR j / 2; INR k / 2] /\ y = x /\ (0 < j)%nat /\ (0 < k)%nat /\ (j + k = 2 * i + 2)%nat.

  Lemma ktb_steady : steady (FKTB_model F) KTB_model ktb_init ktb_init [0; 1]%Z bit_hist n (u * (L + 4)) L ktb_same.
  Proof.
    pose proof (ktb_tracks F u big max HF Hu n Hn Hmax) as T. pose proof (most_pos n) as HL. unfold kt_most in HL. fold L in HL, T.
    split; [exact (proj1 (tr_new _ _ _ _ _ _ _ _ _ _ T))|].
    intros i x y a h H Hi Ha [_ Hh].
    assert (Hb : bits_ok a h) by (split; [exact (in_bits a Ha)|exact Hh]).
    assert (P : 0 <= INR i * L) by (apply Rmult_le_pos; [apply pos_INR|exact HL]).
    assert (C0 : ktb_close n i x y 0) by (split; [exact H|fold L; lra]).
    assert (C1 : ktb_close n i x y (- (INR i * L))) by (split; [exact H|fold L; lra]).
    destruct (tr_step _ _ _ _ _ _ _ _ _ _ T i x y 0 a h C0 Hi Hb) as (x' & y' & lx & ly & U1 & U2 & U3 & U4 & U5).
    destruct (tr_step _ _ _ _ _ _ _ _ _ _ T i x y _ a h C1 Hi Hb) as (x2 & y2 & lx2 & ly2 & V1 & V2 & V3 & V4 & V5).
    rewrite U2 in V2. injection V2 as <- <-. fold L in V5. rewrite S_INR in V5.
    exists x', y', lx, ly. split; [exact U1|]. split; [exact U2|]. split; [exact U3|]. split; [lra|exact U4].
  Qed.

  Lemma ktb_same_inv i x y : ktb_same i x y -> ktb_inv y.
  Proof.
    intros (j & k & -> & -> & Hj & Hk & _). exists (INR j / 2), (INR k / 2). split; [reflexivity|].
    apply lt_INR in Hj, Hk. cbn in Hj, Hk. lra.
  Qed.

  Variable D : nat.
  Hypothesis HD : (0 < D)%nat.
  Hypothesis Hbig : 2 * B + 6 <= big.
  Hypothesis Hsmall : INR n * u * Kd B D <= 1.
  Notation near := (near u L B).

  Lemma mix_move a b a' b' : - L <= a' - a <= 0 -> - L <= b' - b <= 0 ->
    - L <= (log_0_5 + logsumexp2 a' b') - (log_0_5 + logsumexp2 a b) <= 0.
  Proof.
    intros Ha Hb. pose proof (lse2_mono a b a' b' L ltac:(lra) ltac:(lra)). pose proof (lse2_mono a' b' a b 0 ltac:(lra) ltac:(lra)). lra.
  Qed.

  (** the value of a node moves by at most L *)
  Lemma node_move : forall ctx i x y a y' l, (length ctx <= D)%nat -> (S i <= n)%nat -> Forall bit ctx -> bit a ->
    near (length ctx) i x y -> knode_update ctx y a 1 = Ok (y', l) -> - L <= l <= 0 /\ l = k_lp y' - k_lp y.
  Proof.
    induction ctx as [|c ctx IH]; intros i [c0 c1 bx cx lx x0 x1] [c0' c1' by' cy ly y0 y1] a y' l Hd Hi Hctx Ha;
      cbn [FloatsCTW.near length knode_update k_lp]; intros (Hcnt & Hb & Rb & H) E.
    - destruct (bit_ok a Ha) as [b Eb]. rewrite Eb in E. cbn [bind] in E.
      assert (Hq : exists q p, py_div (if b then c1' else c0') (c0' + c1') = Ok q /\ py_log q = Ok p /\ - L <= p <= 0).
      { destruct Hcnt as (j & k & _ & -> & _ & -> & Hj & Hk & Hjk).
        destruct b; [destruct (kt_err F u big max HF Hu n L B Hn eq_refl (Rle_refl _) Hmax i k j ltac:(lia) Hk Hj ltac:(lia)) as (t & _ & _ & D3 & D4 & D5 & _)
          |destruct (kt_err F u big max HF Hu n L B Hn eq_refl (Rle_refl _) Hmax i j k ltac:(lia) Hj Hk Hjk) as (t & _ & _ & D3 & D4 & D5 & _)];
        eexists _, _; (split; [|split; [exact D4|exact D5]]); rewrite <- D3; f_equal; rewrite plus_INR; lra. }
      destruct Hq as (q & p & E1 & E2 & Hp). rewrite E1 in E. cbn [bind] in E. rewrite E2 in E. cbn [bind] in E.
      injection E as <- <-. cbn [k_lp]. destruct H as [_ ->]. lra.
    - destruct (bit_ok a Ha) as [b Eb]. rewrite Eb in E. cbn [bind] in E.
      assert (Hq : exists q p, py_div (if b then c1' else c0') (c0' + c1') = Ok q /\ py_log q = Ok p /\ - L <= p <= 0).
      { destruct Hcnt as (j & k & _ & -> & _ & -> & Hj & Hk & Hjk).
        destruct b; [destruct (kt_err F u big max HF Hu n L B Hn eq_refl (Rle_refl _) Hmax i k j ltac:(lia) Hk Hj ltac:(lia)) as (t & _ & _ & D3 & D4 & D5 & _)
          |destruct (kt_err F u big max HF Hu n L B Hn eq_refl (Rle_refl _) Hmax i j k ltac:(lia) Hj Hk Hjk) as (t & _ & _ & D3 & D4 & D5 & _)];
        eexists _, _; (split; [|split; [exact D4|exact D5]]); rewrite <- D3; f_equal; rewrite plus_INR; lra. }
      destruct Hq as (q & p & E1 & E2 & Hp). rewrite E1 in E. cbn [bind] in E. rewrite E2 in E. cbn [bind] in E.
      inversion Hctx as [|? ? Hbc Hctx']; subst. destruct (bit_ok c Hbc) as [z Ez]. rewrite Ez in E. cbn [bind] in E.
      destruct H as ((n0 & n1 & Hnn & H0 & H1) & Ecy & _ & Ely & _). cbn [length] in Hd.
      assert (Hg : exists xi ni, (ni <= i)%nat /\ near (length ctx) ni xi (match (if z then y1 else y0) with Some q => q | None => new_knode end)).
      { destruct z; [exists (match x1 with Some q => q | None => new_knode end), n1|exists (match x0 with Some q => q | None => new_knode end), n0];
          (split; [lia|]).
        - exact (proj1 (near_get u max n L B Hn Hmax _ _ x1 y1 H1)).
        - exact (proj1 (near_get u max n L B Hn Hmax _ _ x0 y0 H0)). }
      destruct Hg as (xi & ni & Hni & Hg).
      destruct (knode_update ctx _ a 1) as [[yi' r]|e] eqn:EU in E; [cbn [bind] in E|discriminate].
      destruct (IH ni xi _ a yi' r ltac:(lia) ltac:(lia) Hctx' Ha Hg EU) as [Hr _].
      injection E as <- <-. cbn [k_lp]. rewrite Ely. split; [|reflexivity]. apply mix_move; lra.
  Qed.

  Definition ctw_same (i : nat) (x y : ctwkt) : Prop := near_m u D L B i x y /\ kctw_inv D y.

  Lemma ctw_steady : steady (FCTWKT_model F) CTWKT_model (ctwkt_init (Z.of_nat D)) (ctwkt_init (Z.of_nat D)) [0; 1]%Z bit_hist n
    (INR n * u * ((2 * INR D + 3) * K B)) L ctw_same.
  Proof.
    pose proof (ctw_tracks F u big max HF Hu n Hn Hmax D HD Hbig Hsmall) as T. fold L in T.
    split; [split; [exact (proj1 (tr_new _ _ _ _ _ _ _ _ _ _ T))|exact (kctw_inv_init D)]|].
    intros i x y a h [H HI] Hi Ha Hbh. pose proof Hbh as [_ Hh].
    destruct (tr_step _ _ _ _ _ _ _ _ _ _ T i x y _ a h (conj H eq_refl) Hi (conj (in_bits a Ha) Hh)) as (x' & y' & lx & ly & U1 & U2 & U3 & U4 & _).
    destruct (ctwkt_steps D HD y a h 1 HI Ha Hbh Rle_0_1) as (y2 & l2 & V1 & _ & V3).
    rewrite U2 in V1. injection V1 as <- <-.
    exists x', y', lx, ly. split; [exact U1|]. split; [exact U2|]. split; [exact U3|]. split; [|split; assumption].
    destruct H as (Dx & Dy & H). set (c := rev (mkcontext (Z.of_nat D) h)) in *.
    assert (Hl : length c = D) by (unfold c; rewrite rev_length; apply mkcontext_length; exact HD).
    assert (Hc : Forall bit c).
    { apply Forall_forall. intros z Hz. unfold c in Hz. rewrite mkcontext_recent in Hz by exact HD.
      apply (recent_incl [0; 1]%Z D h ltac:(cbn; auto) Hh) in Hz. exact (in_bits z Hz). }
    rewrite <- Hl in H at 1.
    cbn [CTWKT_model m_update] in U2. unfold ctwkt_update in U2. rewrite Dy in U2. fold c in U2.
    destruct (knode_update c (ck_tree y) a 1) as [[t' l]|e] eqn:EU; [cbn [bind] in U2|discriminate].
    injection U2 as <- <-. exact (proj1 (node_move c i _ _ a t' l ltac:(lia) Hi Hc (in_bits a Ha) H EU)).
  Qed.
End bases.

Lemma steps_one {S} (M : model S) A (okh okh' : list Z -> Prop) (okw : R -> Prop) Inv : (forall h, okh' h -> okh h) -> okw 1 -> steps M A okh okw Inv -> steps M A okh' (eq 1) Inv.
Proof. intros H1 Hw H s a h w Hs Ha Hh <-. exact (H s a h 1 Hs Ha (H1 h Hh) Hw). Qed.

(** the number of models retained *)
Lemma log_store_size {S} (xs : list S) t N : st_adds (LogStore_class S) (st_empty (LogStore_class S)) xs = Ok t ->
  (length xs <= Datatypes.S N)%nat -> (length (st_iter (LogStore_class S) t) <= Nat.log2 (N + 1) + 1)%nat.
Proof.
  rewrite ls_adds. intros H Hl. injection H as <-. destruct xs as [|x xs]; [cbn; lia|].
  cbn [st_iter LogStore_class st_empty]. unfold ls_iter. rewrite map_length, (logstore_length (x :: xs)) by discriminate.
  pose proof (Nat.log2_le_mono (length (x :: xs)) (N + 1) ltac:(lia)). lia.
Qed.
Lemma uniform_store_size {S} (xs : list S) t N : st_adds (LogStoreUniform_class S) (st_empty (LogStoreUniform_class S)) xs = Ok t ->
  (length xs <= Datatypes.S N)%nat -> (length (st_iter (LogStoreUniform_class S) t) <= Nat.log2 (N + 1) + 2)%nat.
Proof.
  rewrite us_adds_eq. intros H Hl. destruct xs as [|x xs]; [cbn in H; injection H as <-; cbn; lia|].
  destruct (uniform_items (x :: xs) ltac:(discriminate)) as (s & idx & j & nw & E & Em & _ & _ & _ & _ & _ & Hlen & _).
  cbn [st_empty LogStoreUniform_class] in H. rewrite E in H. injection H as <-. cbn [st_iter LogStoreUniform_class].
  apply (f_equal (@length _)) in Em. rewrite !map_length in Em.
  pose proof (Nat.log2_le_mono (length (x :: xs)) (N + 1) ltac:(lia)) as Hlg. unfold us_iter in *. rewrite ?map_length in *. set (q := Nat.log2 (length (x :: xs))) in *. rewrite rev_length. lia.
Qed.

Lemma bit_events seq : forall h, incl seq [0; 1]%Z -> incl h [0; 1]%Z -> Forall (ok_event [0; 1]%Z bit_hist (eq 1)) (events_from h seq 1).
Proof.
  induction seq as [|a seq IH]; intros h Hs Hh; cbn [events_from]; constructor.
  - split; [exact (Hs a (or_introl eq_refl))|]. split; [split; [exact I|exact Hh]|reflexivity].
  - apply IH; [exact (fun z Hz => Hs z (or_intror Hz))|]. intros z Hz. apply in_app_or in Hz as [Hz|[<- | []]]; [exact (Hh z Hz)|exact (Hs a (or_introl eq_refl))].
Qed.

Section top.
  Context (F : floats) (u big : R) (max : nat).
  Hypothesis HF : accurate F u big max.
  Hypothesis Hu : 0 <= u <= / 64.

  Theorem fmn_any {S1 S2 T} (M1 : model S1) (M2 : model S2) (C : store_class (S := S1) T) TI f1 f2 A okh Inv eps L close m d seq h :
    let n := length seq in
    store_law C TI -> steady M1 M2 f1 f2 A okh (2 * n) eps L close -> steps M2 A okh (eq 1) Inv ->
    (forall i x y, close i x y -> Inv y) ->
    (forall xs t, st_adds C (st_empty C) xs = Ok t -> (length xs <= S n)%nat -> (length (st_iter C t) <= d)%nat) ->
    seq <> [] -> 0 <= L -> 0 <= eps -> fmn_room u big max n d L eps ->
    Forall (ok_event A okh (eq 1)) (events_from h seq 1) ->
    fcompetes F M1 C m f1 h seq (INR n * (23 * fmn_loss u n d L eps + eps)).
  Proof.
    intros n HC HT HS HI HD Hne HL Heps (R1 & R2 & R3 & R4 & R5) Hev.
    assert (Hn : (0 < n)%nat) by (unfold n; destruct seq; [congruence|cbn; lia]).
    exact (competes F u big max HF Hu M1 M2 C TI f1 f2 A okh Inv n d eps L close HC HT HS HI HD Hn HL Heps R1 R2 R3 R4 R5 m h seq eq_refl Hev).
  Qed.

  Variables (seq h : list Z) (m : nat).
  Hypothesis Hs : incl seq [0; 1]%Z.
  Hypothesis Hh : incl h [0; 1]%Z.
  Hypothesis Hne : seq <> [].
  Let n := length seq.
  Let L := kt_most (2 * n).

  Theorem fmn_kt {T} (C : store_class (S := ktb) T) TI d : store_law C TI ->
    (forall xs t, st_adds C (st_empty C) xs = Ok t -> (length xs <= S n)%nat -> (length (st_iter C t) <= d)%nat) ->
    let eps := u * (L + 4) in (4 * n + 2 <= max)%nat -> fmn_room u big max n d L eps ->
    fcompetes F (FKTB_model F) C m ktb_init h seq (INR n * (23 * fmn_loss u n d L eps + eps)).
  Proof.
    intros HC HD eps Hmax HR. assert (Hn : (0 < 2 * n)%nat) by (unfold n; destruct seq; [congruence|cbn; lia]).
    pose proof (most_pos (2 * n)) as HL. fold L in HL.
    refine (fmn_any _ KTB_model C TI _ ktb_init [0; 1]%Z bit_hist ktb_inv eps L ktb_same m d seq h HC
      (ktb_steady F u big max HF Hu (2 * n) Hn ltac:(lia)) _ ktb_same_inv HD Hne HL _ HR (bit_events seq h Hs Hh)).
    - apply (steps_one _ _ any_hist _ nonneg); [intros h' _; exact I|exact Rle_0_1|exact (law_step _ _ _ _ _ ktb_lawful)].
    - unfold eps. apply Rmult_le_pos; lra.
  Qed.

  Theorem fmn_ctw {T} (C : store_class (S := ctwkt) T) TI d D : store_law C TI ->
    (forall xs t, st_adds C (st_empty C) xs = Ok t -> (length xs <= S n)%nat -> (length (st_iter C t) <= d)%nat) ->
    (0 < D)%nat -> let eps := INR (2 * n) * u * ((2 * INR D + 3) * allowance (2 * n)) in
    (4 * n + 2 <= max)%nat -> allowance (2 * n) <= big -> INR (2 * n) * u * ((INR D + 1) * allowance (2 * n)) <= 1 ->
    fmn_room u big max n d L eps ->
    fcompetes F (FCTWKT_model F) C m (ctwkt_init (Z.of_nat D)) h seq (INR n * (23 * fmn_loss u n d L eps + eps)).
  Proof.
    intros HC HD Dpos eps Hmax Hall Hsm HR. assert (Hn : (0 < 2 * n)%nat) by (unfold n; destruct seq; [congruence|cbn; lia]).
    pose proof (most_pos (2 * n)) as HL.
    assert (HA : 0 <= allowance (2 * n)).
    { unfold allowance. change (ln (2 * INR (2 * n) + 2)) with L. fold L in HL. pose proof (pos_INR (2 * n)). nra. }
    assert (HB : 2 * (INR (2 * n) * ln (2 * INR (2 * n) + 2) + 2) + 6 <= big).
    { unfold allowance in Hall, HA. change (ln (2 * INR (2 * n) + 2)) with L in *. fold L in HL. pose proof (pos_INR (2 * n)).
      assert (0 <= INR (2 * n) * L) by (apply Rmult_le_pos; lra). lra. }
    refine (fmn_any _ CTWKT_model C TI _ (ctwkt_init (Z.of_nat D)) [0; 1]%Z bit_hist (kctw_inv D) eps L (ctw_same u (2 * n) D) m d seq h HC
      (ctw_steady F u big max HF Hu (2 * n) Hn ltac:(lia) D Dpos HB Hsm) _ _ HD Hne HL _ HR (bit_events seq h Hs Hh)).
    - apply (steps_one _ _ bit_hist _ nonneg); [auto|exact Rle_0_1|exact (ctwkt_steps D Dpos)].
    - intros i x y [_ H]. exact H.
    - unfold eps. pose proof (pos_INR D). pose proof (pos_INR (2 * n)). apply Rmult_le_pos; [apply Rmult_le_pos; lra|apply Rmult_le_pos; lra].
  Qed.

  Theorem fmn_kt_log : let d := (Nat.log2 (n + 1) + 1)%nat in let eps := u * (L + 4) in (4 * n + 2 <= max)%nat -> fmn_room u big max n d L eps ->
    fcompetes F (FKTB_model F) (LogStore_class ktb) m ktb_init h seq (INR n * (23 * fmn_loss u n d L eps + eps)).
  Proof. intros d. exact (fmn_kt _ _ d (logstore_law ktb) (fun xs t => log_store_size xs t n)). Qed.

  Theorem fmn_kt_uniform : let d := (Nat.log2 (n + 1) + 2)%nat in let eps := u * (L + 4) in (4 * n + 2 <= max)%nat -> fmn_room u big max n d L eps ->
    fcompetes F (FKTB_model F) (LogStoreUniform_class ktb) m ktb_init h seq (INR n * (23 * fmn_loss u n d L eps + eps)).
  Proof. intros d. exact (fmn_kt _ _ d (uniform_law ktb) (fun xs t => uniform_store_size xs t n)). Qed.

  Theorem fmn_ctw_log D : (0 < D)%nat -> let d := (Nat.log2 (n + 1) + 1)%nat in
    let eps := INR (2 * n) * u * ((2 * INR D + 3) * allowance (2 * n)) in
    (4 * n + 2 <= max)%nat -> allowance (2 * n) <= big -> INR (2 * n) * u * ((INR D + 1) * allowance (2 * n)) <= 1 ->
    fmn_room u big max n d L eps ->
    fcompetes F (FCTWKT_model F) (LogStore_class ctwkt) m (ctwkt_init (Z.of_nat D)) h seq (INR n * (23 * fmn_loss u n d L eps + eps)).
  Proof. intros HD d. exact (fmn_ctw _ _ d D (logstore_law ctwkt) (fun xs t => log_store_size xs t n) HD). Qed.
End top.

(** with 52 digits, seven bits, depth 8 *)
Lemma ffmn_example : let u := powerRZ 2 (-52) in let n := 7%nat in let d := (Nat.log2 (n + 1) + 1)%nat in let L := kt_most (2 * n) in
  let eps1 := u * (L + 4) in let eps2 := INR (2 * n) * u * ((2 * INR 8 + 3) * allowance (2 * n)) in
  accurate (chopped 52) u 2000 (Z.to_nat (2 ^ 52)) /\ 0 <= u <= / 64 /\ (4 * n + 2 <= Z.to_nat (2 ^ 52))%nat /\
  fmn_room u 2000 (Z.to_nat (2 ^ 52)) n d L eps1 /\
  allowance (2 * n) <= 2000 /\ INR (2 * n) * u * ((INR 8 + 1) * allowance (2 * n)) <= 1 /\
  fmn_room u 2000 (Z.to_nat (2 ^ 52)) n d L eps2 /\
  INR n * (23 * fmn_loss u n d L eps1 + eps1) <= / 1000000 /\ INR n * (23 * fmn_loss u n d L eps2 + eps2) <= / 1000000.
Proof.
  cbv zeta. destruct ptw_example as (H1 & H2 & _). set (u := powerRZ 2 (-52)) in *.
  assert (Hu : u = / IZR (2 ^ 52)).
  { unfold u. replace (-52)%Z with (- (52))%Z by reflexivity. rewrite <- pow2_Z by lia.
    apply Rmult_eq_reg_r with (powerRZ 2 52); [|apply Rgt_not_eq, pow2_pos].
    rewrite <- pow2_add, Rinv_l by (apply Rgt_not_eq, pow2_pos). reflexivity. }
  change (2 ^ 52)%Z with 4503599627370496%Z in Hu.
  change (Nat.log2 (7 + 1) + 1)%nat with 4%nat. change (2 * 7)%nat with 14%nat.
  assert (HL : 0 <= kt_most 14 <= 29).
  { split; [apply most_pos|]. unfold kt_most.
    assert (E : INR 14 = 14) by (cbn [INR]; lra). rewrite E. replace (2 * 14 + 2) with 30 by lra.
    pose proof (exp_ineq1_le (ln 30)) as E2. rewrite exp_ln in E2 by lra. lra. }
  assert (HA : 0 <= allowance 14 <= 1654).
  { unfold allowance. change (ln (2 * INR 14 + 2)) with (kt_most 14). cbn [INR]. lra. }
  assert (H4l : 0 <= ln (INR 4) <= 3).
  { assert (E : INR 4 = 4) by (cbn [INR]; lra). rewrite E. split; [rewrite <- ln_1; apply ln_le; lra|].
    pose proof (exp_ineq1_le (ln 4)) as E2. rewrite exp_ln in E2 by lra. lra. }
  assert (A1 : 0 <= avg_size 7 4 (kt_most 14) 0 <= 210) by (unfold avg_size; set (l := ln (INR 4)) in *; cbn [INR]; lra).
  assert (M1 : (2 * 4 <= Z.to_nat (2 ^ 52))%nat) by lia.
  assert (P : forall eps, 0 <= eps <= 1000000 * u ->
    fmn_room u 2000 (Z.to_nat (2 ^ 52)) 7 4 (kt_most 14) eps /\ INR 7 * (23 * fmn_loss u 7 4 (kt_most 14) eps + eps) <= / 1000000).
  { intros eps He.
    assert (A2 : 0 <= avg_drift u 7 4 (kt_most 14) 0 eps <= 7 * eps + 2000 * u).
    { unfold avg_drift. set (A := avg_size _ _ _ _) in *. cbn [INR]. rewrite Hu in *. lra. }
    assert (A3 : 0 <= fmn_loss u 7 4 (kt_most 14) eps <= 14 * eps + 8000 * u).
    { unfold fmn_loss, ptw_loss, avg_eps, ptw_size. set (A := avg_size _ _ _ _) in *. set (dr := avg_drift _ _ _ _ _ _) in *. cbn [INR]. rewrite Hu in *. lra. }
    split; [|set (fl := fmn_loss _ _ _ _ _) in *; cbn [INR]; rewrite Hu in *; lra].
    split; [exact M1|]. split; [set (A := avg_size _ _ _ _) in *; cbn [INR]; lra|]. split; [rewrite Hu in *; lra|].
    split; [unfold ptw_size; cbn [INR]; lra|]. set (fl := fmn_loss _ _ _ _ _) in *; cbn [INR]; rewrite Hu in *; lra. }
  assert (E1 : 0 <= u * (kt_most 14 + 4) <= 1000000 * u) by (rewrite Hu in *; lra).
  assert (E2 : 0 <= INR 14 * u * ((2 * INR 8 + 3) * allowance 14) <= 1000000 * u).
  { set (al := allowance 14) in *. cbn [INR]. rewrite Hu in *. lra. }
  destruct (P _ E1) as [P1 P2]. destruct (P _ E2) as [P3 P4].
  split; [exact H1|]. split; [exact H2|]. split; [lia|]. split; [exact P1|]. split; [lra|].
  split; [set (al := allowance 14) in *; cbn [INR]; rewrite Hu in *; lra|]. split; [exact P3|]. split; [exact P2|exact P4].
Qed.
