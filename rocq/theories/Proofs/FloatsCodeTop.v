(** The size of the code of KT and PTW when floats round. *)
From Coq Require Import Lra.
From Verif Require Import Spec.FloatsCodeSpec Spec.FloatsNestSpec Spec.ACSpec Spec.KTSpec Spec.SourceSpec Spec.PTWSpec Proofs.RealFacts Proofs.ProbFacts Proofs.KTFacts Proofs.KTBinFacts Proofs.KTRedundancy Proofs.ACOverhead Proofs.ZipModels Proofs.SourceProps
  Proofs.FloatsFacts Proofs.FloatsKTAny Proofs.FloatsFMNKT Proofs.FloatsPTWSteady Proofs.FloatsChop Proofs.FloatsAnyTop Proofs.FloatsACFacts Proofs.FloatsCode.
Open Scope R_scope.

Lemma exp_small e : 0 <= e <= / 2 -> exp e <= 1 + 2 * e.
Proof.
  intros He. pose proof (exp_pos e). pose proof (exp_ineq1_le (- e)) as H1.
  pose proof (exp_Ropp e) as H2. assert (exp e * exp (- e) = 1) by (rewrite H2; field; lra). nra.
Qed.

Section follows.
  Context {S1 S2 : Type} (M1 : model S1) (M2 : model S2) (f1 : S1) (f2 : S2) (okh : list Z -> Prop) (n : nat) (eps L : R)
    (close : nat -> S1 -> S2 -> Prop) (Inv : S2 -> Prop).
  Hypothesis HS : steady M1 M2 f1 f2 [0; 1]%Z okh n eps L close.
  Hypothesis Hh : okh [].
  Hypothesis HC : coherent M2 Inv.
  Hypothesis Heps : 0 <= eps <= / 2.

  Lemma follows_step i x y b : close i x y -> Inv y -> (S i <= n)%nat -> is_bit b ->
    exists x' y' lx ly, m_update M1 x b [] 1 = Ok (x', lx) /\ m_update M2 y b [] 1 = Ok (y', ly) /\ Rabs (lx - ly) <= eps /\
      close (S i) x' y' /\ Inv y' /\ exp (- L) - 2 * eps <= exp lx <= 1 - (exp (- L) - 2 * eps).
  Proof.
    intros Hc Hi Hn Hb.
    destruct (sd_step _ _ _ _ _ _ _ _ _ _ HS i x y 0%Z [] Hc Hn ltac:(cbn; auto) Hh) as (x0 & y0 & lx0 & ly0 & U0 & V0 & E0 & R0 & C0).
    destruct (sd_step _ _ _ _ _ _ _ _ _ _ HS i x y 1%Z [] Hc Hn ltac:(cbn; auto) Hh) as (x1 & y1 & lx1 & ly1 & U1 & V1 & E1 & R1 & C1).
    destruct (HC y Hi) as (z0 & l0 & z1 & l1 & W0 & W1 & I0 & I1 & Hsum).
    rewrite V0 in W0. injection W0 as <- <-. rewrite V1 in W1. injection W1 as <- <-.
    assert (Hg : forall lx ly lz, Rabs (lx - ly) <= eps -> - L <= ly <= 0 -> - L <= lz -> exp ly + exp lz = 1 ->
      exp (- L) - 2 * eps <= exp lx <= 1 - (exp (- L) - 2 * eps)).
    { intros lx ly lz E [Rl Ru] Rz Hs. unfold Rabs in E; destruct (Rcase_abs _) in E.
      all: assert (A1 : exp (- L) <= exp ly) by (apply exp_le_mono; lra).
      all: assert (A2 : exp (- L) <= exp lz) by (apply exp_le_mono; lra).
      all: assert (A3 : exp ly <= 1) by (pose proof (exp_pos lz); lra).
      all: pose proof (exp_small eps Heps) as A4.
      all: assert (B1 : exp lx <= exp ly * exp eps) by (rewrite <- exp_plus; apply exp_le_mono; lra).
      all: assert (B2 : exp ly * exp (- eps) <= exp lx) by (rewrite <- exp_plus; apply exp_le_mono; lra).
      all: pose proof (exp_ineq1_le (- eps)) as A5.
      all: pose proof (exp_pos ly).
      all: split; nra. }
    destruct Hb as [-> | ->].
    - exists x0, y0, lx0, ly0. repeat (split; [assumption|]). apply (Hg lx0 ly0 ly1); assumption || lra.
    - exists x1, y1, lx1, ly1. repeat (split; [assumption|]). apply (Hg lx1 ly1 ly0); assumption || lra.
  Qed.

  Lemma follows_run : forall bits i x y, close i x y -> Inv y -> (i + length bits <= n)%nat -> Forall is_bit bits ->
    undecided M1 (exp (- L) - 2 * eps) x bits /\ 0 < seq_prob M1 x (unit_events bits) /\ 0 < seq_prob M2 y (unit_events bits) /\
    - ln (seq_prob M1 x (unit_events bits)) <= - ln (seq_prob M2 y (unit_events bits)) + INR (length bits) * eps.
  Proof.
    induction bits as [|b bits IH]; intros i x y Hc Hi Hn Hb.
    - cbn [unit_events map seq_prob length INR undecided]. rewrite ln_1. repeat split; lra.
    - inversion_clear Hb as [|? ? Hb1 Hb2]. cbn [length] in *.
      destruct (follows_step i x y b Hc Hi ltac:(lia) Hb1) as (x' & y' & lx & ly & U & V & E & Hc' & Hi' & Hd).
      destruct (IH (S i) x' y' Hc' Hi' ltac:(lia) Hb2) as (Hun & P1 & P2 & Hle).
      split; [cbn [undecided]; split; [exact Hb1|]; exists x', lx; auto|].
      cbn [unit_events map seq_prob ev_sym ev_hist ev_wt]. fold (unit_events bits). rewrite U, V.
      pose proof (exp_pos lx). pose proof (exp_pos ly).
      split; [now apply Rmult_lt_0_compat|]. split; [now apply Rmult_lt_0_compat|].
      rewrite !ln_mult, !ln_exp by assumption. rewrite S_INR.
      assert (ly - lx <= eps) by (unfold Rabs in E; destruct (Rcase_abs _) in E; lra). lra.
  Qed.
End follows.

Section top.
  Context (F : floats) (mul : R -> R -> R) (u big : R) (max : nat).
  Hypothesis HF : accurate F u big max.
  Hypothesis Hu : 0 <= u <= / 64.
  Hypothesis Hbig : 1 <= big.

  Theorem follows_code {S1 S2} (M1 : model S1) (M2 : model S2) f1 f2 okh eps L close Inv N k fuel bits :
    let n := length bits in let d := exp (- L) - 2 * eps in
    multiplies mul u (2 ^ N) -> (2 <= N)%nat -> (N < fuel)%nat -> (1 <= k)%nat -> (k < N)%nat -> (N <= k * (k + 1))%nat ->
    steady M1 M2 f1 f2 [0; 1]%Z okh n eps L close -> okh [] -> coherent M2 Inv -> Inv f2 -> 0 <= eps <= / 2 -> 4 * u < d ->
    Forall is_bit bits ->
    exists code, compress (fp_coder_of F mul M1) N fuel f1 bits = Ok code /\ 0 < seq_prob M2 f2 (unit_events bits) /\
      (INR N - 2 * INR k) * (INR (length code) - 2) <=
      (INR N - INR k) * ((- ln (seq_prob M2 f2 (unit_events bits)) + INR n * (/ 2 ^ k + split_loss u d + eps)) / ln 2 + INR k).
  Proof.
    intros n d Hmul HN Hfu Hk1 HkN Hkk HS Hh HC Hi Heps Hd Hb.
    destruct (follows_run M1 M2 f1 f2 okh n eps L close Inv HS Hh HC Heps bits 0 f1 f2 (sd_new _ _ _ _ _ _ _ _ _ _ HS) Hi ltac:(reflexivity) Hb)
      as (Hun & P1 & P2 & Hle).
    destruct (fp_redundancy F mul u big max HF (proj1 Hu) Hbig M1 N k fuel Hmul HN Hfu Hk1 HkN Hkk d Hd f1 bits Hun) as (code & Ec & _ & Hc).
    exists code. split; [exact Ec|]. split; [exact P2|]. eapply Rle_trans; [exact Hc|].
    pose proof (NK N k HkN) as HNK. pose proof ln2_pos as Hg.
    apply Rmult_le_compat_l; [lra|]. apply Rplus_le_compat_r. apply Rmult_le_compat_r; [left; now apply Rinv_0_lt_compat|].
    change (length bits) with n in Hle |- *. lra.
  Qed.

  Lemma small_loss d q : 0 < q -> / (4 * q) <= d -> 32 * q * u <= 1 -> 4 * u < d /\ split_loss u d <= 32 * q * u.
  Proof.
    intros Hq Hd Hs. assert (Hi : / (4 * q) * (4 * q) = 1) by (field; lra). assert (Pi : 0 < / (4 * q)) by (apply Rinv_0_lt_compat; lra).
    assert (Hd2 : 8 * u <= / (4 * q)).
    { apply Rmult_le_reg_r with (4 * q); [lra|]. rewrite Hi. nra. }
    split; [lra|]. unfold split_loss. apply Rmult_le_reg_r with (d - 4 * u); [lra|].
    replace (4 * u / (d - 4 * u) * (d - 4 * u)) with (4 * u) by (field; lra).
    apply Rle_trans with (32 * q * u * (/ (4 * q) / 2)).
    - replace (32 * q * u * (/ (4 * q) / 2)) with (4 * u * (/ (4 * q) * (4 * q))) by (field; lra). rewrite Hi. lra.
    - apply Rmult_le_compat_l; [nra|]. lra.
  Qed.

  Hypothesis Hmul : multiplies mul u (2 ^ 32).

  Lemma bits_are bits : Forall is_bit bits -> KTRedundancy.bits bits /\ incl bits [0; 1]%Z.
  Proof.
    intros H. split; [unfold KTRedundancy.bits|]; [eapply Forall_impl; [|exact H]; intros a [-> | ->]; cbn; auto|].
    intros a Ha. rewrite Forall_forall in H. destruct (H a Ha) as [-> | ->]; cbn; auto.
  Qed.

  Theorem kt_code tiny bits theta fuel : divides F u tiny -> Forall is_bit bits -> bits <> [] -> (32 < fuel)%nat ->
    0 <= theta <= 1 -> 0 < coin_prob theta bits -> let n := length bits in
    32 * (INR n + 2) * u <= 1 -> tiny <= / (4 * INR n) -> 2 * INR n + 4 <= big -> 8 * INR n * kt_off u 2 n <= 1 ->
    exists f1 code, fkt_init F [0; 1]%Z = Ok f1 /\ compress (fp_coder_of F mul (FKT_model F)) 32 fuel f1 bits = Ok code /\
      20 * (INR (length code) - 2) <=
      26 * (- ln (coin_prob theta bits) / ln 2 + ln (INR n) / (2 * ln 2) + INR n * (/ 64 + kt_off u 2 n + 32 * INR n * u) / ln 2 + 7).
  Proof.
    intros HQ Hb Hne Hf Ht Hp n H1 H2 H3 H4.
    assert (Hn : (0 < n)%nat) by (unfold n; destruct bits; [congruence|cbn; lia]).
    assert (Hn1 : 1 <= INR n) by (apply (le_INR 1); exact Hn).
    assert (ND : NoDup [0; 1]%Z) by (repeat constructor; cbn; intuition discriminate).
    destruct (kt_steady F u big tiny max HF HQ Hu [0; 1]%Z n ND ltac:(discriminate) Hn H1) as (f1 & Hf1 & HS).
    { replace (2 * INR (length [0%Z; 1%Z]) * INR n) with (4 * INR n); [exact H2|]. cbn [length INR]. ring. }
    { exact H3. }
    change (length [0%Z; 1%Z]) with 2%nat in HS.
    assert (HL : exp (- kt_worst 2 n) = / (2 * INR n)).
    { unfold kt_worst. rewrite exp_Ropp, exp_ln by (cbn [INR]; lra). reflexivity. }
    pose proof (off_pos u tiny Hu [0; 1]%Z n ND ltac:(discriminate) Hn H1) as Ho.
    assert (Ho' : 0 <= kt_off u 2 n).
    { apply Ho. replace (2 * INR (length [0%Z; 1%Z]) * INR n) with (4 * INR n); [exact H2|]. cbn [length INR]. ring. }
    clear Ho. set (eps := kt_off u 2 n) in *.
    assert (Hin : / (2 * INR n) * (2 * INR n) = 1) by (field; lra).
    assert (Hd : / (4 * INR n) <= / (2 * INR n) - 2 * eps).
    { replace (/ (4 * INR n)) with (/ (2 * INR n) / 2) by (field; lra). assert (2 * eps <= / (2 * INR n) / 2); [|lra].
      apply Rmult_le_reg_r with (2 * INR n); [lra|]. replace (/ (2 * INR n) / 2 * (2 * INR n)) with (/ 2) by (field; lra). lra. }
    destruct (small_loss _ (INR n) ltac:(lra) Hd ltac:(nra)) as [Hd4 Hsl].
    destruct (follows_code (FKT_model F) KT_model f1 (kt_init [0; 1]%Z) any_hist eps (kt_worst 2 n) _ (kt_inv [0; 1]%Z) 32 6 fuel bits
      Hmul ltac:(lia) Hf ltac:(lia) ltac:(lia) ltac:(cbn; lia) HS I) as (code & Ec & PQ & Hc).
    { apply (lawful_coherent _ any_hist nonneg); [apply kt_lawful|exact I|apply one_ok]. }
    { apply kt_inv_init; [exact ND|discriminate]. }
    { split; [exact Ho'|]. nra. }
    { rewrite HL. exact Hd4. }
    { exact Hb. }
    exists f1, code. split; [exact Hf1|]. split; [exact Ec|]. rewrite HL in Hc. change (length bits) with n in Hc.
    set (sl := split_loss u (/ (2 * INR n) - 2 * eps)) in *.
    replace (INR 32 - 2 * INR 6) with 20 in Hc by (cbn [INR]; lra). replace (INR 32 - INR 6) with 26 in Hc by (cbn [INR]; lra).
    replace (INR 6) with 6 in Hc by (cbn [INR]; lra). replace (2 ^ 6) with 64 in Hc by (cbn [pow]; lra).
    eapply Rle_trans; [exact Hc|]. apply Rmult_le_compat_l; [lra|].
    set (Q := seq_prob KT_model (kt_init [0; 1]%Z) (unit_events bits)) in *.
    pose proof (kt_redundancy_prob bits theta (proj1 (bits_are bits Hb)) Hne Ht) as HK. fold Q n in HK.
    assert (Hs : 0 < sqrt (INR n)) by (apply sqrt_lt_R0; lra).
    apply (fun H => ln_le _ _ H) in HK; [|apply Rdiv_lt_0_compat; [exact Hp|lra]].
    assert (EL : ln (coin_prob theta bits / (2 * sqrt (INR n))) = ln (coin_prob theta bits) - ln 2 - / 2 * ln (INR n)).
    { unfold Rdiv. rewrite ln_mult; [|exact Hp|apply Rinv_0_lt_compat; lra]. rewrite ln_Rinv by lra. rewrite ln_mult by lra.
      rewrite <- (sqrt_sqrt (INR n)) at 2 by lra. rewrite ln_mult by assumption. lra. }
    rewrite EL in HK. pose proof ln2_pos as Hg.
    apply Rmult_le_reg_r with (ln 2); [exact Hg|].
    replace ((- ln (coin_prob theta bits) / ln 2 + ln (INR n) / (2 * ln 2) + INR n * (/ 64 + eps + 32 * INR n * u) / ln 2 + 7) * ln 2)
      with (- ln (coin_prob theta bits) + / 2 * ln (INR n) + INR n * (/ 64 + eps + 32 * INR n * u) + 7 * ln 2) by (field; lra).
    replace (((- ln Q + INR n * (/ 64 + sl + eps)) / ln 2 + 6) * ln 2) with (- ln Q + INR n * (/ 64 + sl + eps) + 6 * ln 2) by (field; lra).
    assert (INR n * (/ 64 + sl + eps) <= INR n * (/ 64 + eps + 32 * INR n * u)) by (apply Rmult_le_compat_l; lra). lra.
  Qed.

  Theorem ptw_code bits theta cps fuel : Forall is_bit bits -> bits <> [] -> (32 < fuel)%nat ->
    (forall t, 0 <= theta t <= 1) -> changes_at theta cps -> 0 < drift_prob theta 0 bits ->
    let n := length bits in let d := levels 0 n in let k := length cps in
    let loss := ptw_loss u n (kt_most n) 0 (u * (kt_most n + 4)) in let eps := 45 * (INR n * loss) in
    (2 * n + 2 <= max)%nat -> 2 * ptw_size n (kt_most n) 0 + 6 <= big -> 25 * (INR n * loss) <= 1 ->
    32 * (INR n + 1) * u <= 1 -> 8 * (INR n + 1) * eps <= 1 ->
    exists code, compress (fp_coder_of F mul (FPTW_model F (FKTB_model F) 0 ktb_init)) 32 fuel (ptw_init 0 ktb_init) bits = Ok code /\
      20 * (INR (length code) - 2) <=
      26 * ((- ln (drift_prob theta 0 bits) + (INR (1 + k * d) * learn n + INR (1 + 2 * k * d) * ln 2 + INR (pred d) * ln (3 / 2))
             + INR n * (/ 64 + eps + 32 * (INR n + 1) * u)) / ln 2 + 6).
  Proof.
    intros Hb Hne Hf Ht Hch Hp n d k loss eps H1 H2 H3 H4 H5.
    assert (Hn : (0 < n)%nat) by (unfold n; destruct bits; [congruence|cbn; lia]).
    assert (Hn1 : 1 <= INR n) by (apply (le_INR 1); exact Hn).
    pose proof (most_pos n) as HL0.
    assert (He0 : 0 <= u * (kt_most n + 4)) by (apply Rmult_le_pos; lra).
    pose proof (ptw_steady F u big max HF Hu (FKTB_model F) KTB_model ktb_init ktb_init [0; 1]%Z bit_hist n (u * (kt_most n + 4)) (kt_most n) _
      (ktb_steady F u big max HF Hu n Hn H1) 0 Hn HL0 He0 H2 H3) as HS. fold loss eps in HS.
    assert (HL : exp (- kt_most n) = / (2 * (INR n + 1))).
    { unfold kt_most. rewrite exp_Ropp, exp_ln by lra. f_equal. ring. }
    assert (Ho : 0 <= eps).
    { unfold eps, loss, ptw_loss, ptw_size. assert (0 <= u * (3 * (4 * INR n * (kt_most n + 0 + 2) + 8) + 20)) by (apply Rmult_le_pos; [lra|nra]). nra. }
    set (q := INR n + 1) in *.
    assert (Hd : / (4 * q) <= / (2 * q) - 2 * eps).
    { unfold q in *. replace (/ (4 * (INR n + 1))) with (/ (2 * (INR n + 1)) / 2) by (field; lra). assert (2 * eps <= / (2 * (INR n + 1)) / 2); [|lra].
      apply Rmult_le_reg_r with (2 * (INR n + 1)); [lra|]. replace (/ (2 * (INR n + 1)) / 2 * (2 * (INR n + 1))) with (/ 2) by (field; lra). lra. }
    destruct (small_loss _ q ltac:(unfold q; lra) Hd ltac:(unfold q in *; nra)) as [Hd4 Hsl].
    destruct (follows_code _ _ _ _ bit_hist eps (kt_most n) _ (reached (PTW_model KTB_model 0 ktb_init) (ptw_init 0 ktb_init)) 32 6 fuel bits
      Hmul ltac:(lia) Hf ltac:(lia) ltac:(lia) ltac:(cbn; lia) HS ltac:(split; [exact I|intros ? []])) as (code & Ec & PQ & Hc).
    { apply (ptw_coherent KTB_model any_hist nonneg ktb_inv); [apply ktb_lawful|exact I|apply one_ok|apply ktb_inv_init]. }
    { apply reached_start. }
    { split; [exact Ho|]. unfold q in H5. nra. }
    { rewrite HL. exact Hd4. }
    { exact Hb. }
    exists code. split; [exact Ec|]. rewrite HL in Hc. change (length bits) with n in Hc.
    set (sl := split_loss u (/ (2 * q) - 2 * eps)) in *.
    replace (INR 32 - 2 * INR 6) with 20 in Hc by (cbn [INR]; lra). replace (INR 32 - INR 6) with 26 in Hc by (cbn [INR]; lra).
    replace (INR 6) with 6 in Hc by (cbn [INR]; lra). replace (2 ^ 6) with 64 in Hc by (cbn [pow]; lra).
    eapply Rle_trans; [exact Hc|]. apply Rmult_le_compat_l; [lra|]. apply Rplus_le_compat_r. pose proof ln2_pos as Hg.
    apply Rmult_le_compat_r; [left; now apply Rinv_0_lt_compat|].
    assert (Hc0 : Forall (fun c => c mod 2 ^ 0 = 0)%nat cps) by (apply Forall_forall; intros c _; apply Nat.mod_1_r).
    assert (Hub : unit_bits (unit_events bits)).
    { unfold unit_bits, unit_events. apply Forall_forall. intros e Hin. apply in_map_iff in Hin as (x & <- & Hx). rewrite Forall_forall in Hb.
      destruct (Hb x Hx) as [-> | ->]; cbn; tauto. }
    assert (Hsy : map ev_sym (unit_events bits) = bits) by (unfold unit_events; rewrite map_map; apply map_id).
    assert (Hln : length (unit_events bits) = n) by (unfold unit_events; now rewrite map_length).
    destruct (ptw_drift theta cps 0 (unit_events bits) Ht Hch Hc0 Hub ltac:(rewrite Hsy; exact Hp)) as (s & l & Er & HB).
    rewrite Hsy, Hln in HB. fold d k in HB. rewrite (seq_prob_run _ _ _ _ _ Er), ln_exp.
    assert (INR n * (/ 64 + sl + eps) <= INR n * (/ 64 + eps + 32 * q * u)) by (apply Rmult_le_compat_l; lra). lra.
  Qed.
End top.

Lemma chopped_multiplies p top : multiplies (fun x y => chop p (x * y)) (powerRZ 2 (- p)) top.
Proof.
  intros x y Hx Hy. pose proof (chop_rel p (x * y)) as H. eapply Rle_trans; [exact H|].
  apply Rmult_le_compat_l; [left; apply pow2_pos|]. rewrite Rabs_right by nra. nra.
Qed.

Lemma drift_pos theta (HP : forall t, 0 < theta t < 1) bits : Forall is_bit bits -> forall t, 0 < drift_prob theta t bits.
Proof.
  induction 1 as [|b bits Hb1 Hb2 IH]; intros t; cbn [drift_prob]; [lra|].
  apply Rmult_lt_0_compat; [|apply IH]. specialize (HP t). unfold coin. destruct Hb1 as [-> | ->]; cbn; lra.
Qed.

(** 100 bits, 52 digits, coins that change after 64 *)
Lemma code_example : let u := powerRZ 2 (-52) in let big := 200000 in let tiny := / 1000 in let max := Z.to_nat (2 ^ 52) in
  let bits := alternating 50 in let n := length bits in let theta := fun t => if (t <? 64)%nat then / 4 else 3 / 4 in
  let loss := ptw_loss u n (kt_most n) 0 (u * (kt_most n + 4)) in
  accurate (chopped 52) u big max /\ 0 <= u <= / 64 /\ 1 <= big /\ multiplies (fun x y => chop 52 (x * y)) u (2 ^ 32) /\
  divides (chopped 52) u tiny /\ Forall is_bit bits /\ bits <> [] /\ n = 100%nat /\
  0 < coin_prob (/ 2) bits /\ 32 * (INR n + 2) * u <= 1 /\ tiny <= / (4 * INR n) /\ 2 * INR n + 4 <= big /\
  8 * INR n * kt_off u 2 n <= 1 /\ INR n * (kt_off u 2 n + 32 * INR n * u) <= / 1000000 /\
  (forall t, 0 <= theta t <= 1) /\ changes_at theta [64%nat] /\ 0 < drift_prob theta 0 bits /\
  (2 * n + 2 <= max)%nat /\ 2 * ptw_size n (kt_most n) 0 + 6 <= big /\ 25 * (INR n * loss) <= 1 /\ 32 * (INR n + 1) * u <= 1 /\
  8 * (INR n + 1) * (45 * (INR n * loss)) <= 1 /\ INR n * (45 * (INR n * loss) + 32 * (INR n + 1) * u) <= / 1000.
Proof.
  cbv zeta. destruct ptw_example as (_ & H2 & _). pose proof (chopped_accurate 52 200000 ltac:(lia)) as H1. pose proof (chopped_multiplies 52 (2 ^ 32)) as HM.
  pose proof (chopped_divides 52 (/ 1000)) as HQ. set (u := powerRZ 2 (-52)) in *.
  assert (Hu : u = / IZR (2 ^ 52)).
  { unfold u. replace (-52)%Z with (- (52))%Z by reflexivity. rewrite <- pow2_Z by lia.
    apply Rmult_eq_reg_r with (powerRZ 2 52); [|apply Rgt_not_eq, pow2_pos].
    rewrite <- pow2_add, Rinv_l by (apply Rgt_not_eq, pow2_pos). reflexivity. }
  change (2 ^ 52)%Z with 4503599627370496%Z in *.
  pose proof (alternating_bits 50) as Hb. assert (Hn : length (alternating 50) = 100%nat) by reflexivity.
  assert (Hne : alternating 50 <> []) by discriminate.
  set (bits := alternating 50) in *. clearbody bits. rewrite Hn.
  assert (I : INR 100 = 100) by (rewrite INR_IZR_INZ; reflexivity). assert (I2 : INR 2 = 2) by (cbn [INR]; lra).
  assert (HL : 0 <= kt_worst 2 100 <= 200).
  { unfold kt_worst. rewrite I, I2. replace (2 * 100) with 200 by lra. split; [rewrite <- ln_1; apply ln_le; lra|].
    pose proof (exp_ineq1_le (ln 200)) as E2. rewrite exp_ln in E2 by lra. lra. }
  assert (HM2 : 0 <= kt_most 100 <= 202).
  { unfold kt_most. rewrite I. replace (2 * 100 + 2) with 202 by lra. split; [rewrite <- ln_1; apply ln_le; lra|].
    pose proof (exp_ineq1_le (ln 202)) as E2. rewrite exp_ln in E2 by lra. lra. }
  assert (O1 : 0 <= kt_off u 2 100 <= 2000 * u) by (unfold kt_off; rewrite I, I2; rewrite Hu in *; lra).
  assert (P1 : 0 <= ptw_loss u 100 (kt_most 100) 0 (u * (kt_most 100 + 4)) <= 300000 * u).
  { unfold ptw_loss, ptw_size. rewrite I. rewrite Hu in *. lra. }
  set (loss := ptw_loss _ _ _ _ _) in *. set (e := kt_off u 2 100) in *. rewrite I.
  assert (HP : forall t, 0 < (if (t <? 64)%nat then / 4 else 3 / 4) < 1) by (intros t; destruct (t <? 64)%nat; lra).
  repeat match goal with |- _ /\ _ => split end; try assumption; try reflexivity; try (rewrite Hu in *; lra).
  - unfold coin_prob. apply Rmult_lt_0_compat; apply pow_lt; lra.
  - intros t. specialize (HP t). lra.
  - intros t Ht. cbn. left. destruct (Nat.ltb_spec (S t) 64), (Nat.ltb_spec t 64); try congruence; lia.
  - apply drift_pos; assumption.
  - rewrite <- (Nat2Z.id (2 * 100 + 2)). apply Z2Nat.inj_le; lia.
  - unfold ptw_size. rewrite I. lra.
Qed.

Lemma undecided_less {S} (M : model S) d d' : d' <= d -> forall bits m, undecided M d m bits -> undecided M d' m bits.
Proof.
  intros Hd. induction bits as [|b bits IH]; intros m; cbn [undecided]; [auto|].
  intros (Hb & m' & l & E & Hl & Hr). split; [exact Hb|]. exists m', l. split; [exact E|]. split; [lra|]. now apply IH.
Qed.

(** The estimator meets what is asked of models *)
Lemma follows_example : let u := powerRZ 2 (-52) in let F := chopped 52 in let bits := alternating 50 in let n := length bits in
  let d := exp (- kt_worst 2 n) - 2 * kt_off u 2 n in
  exists f1 close, fkt_init F [0; 1]%Z = Ok f1 /\ undecided (FKT_model F) (/ 400) f1 bits /\ 4 * u < / 400 <= d /\
    steady (FKT_model F) KT_model f1 (kt_init [0; 1]%Z) [0; 1]%Z any_hist n (kt_off u 2 n) (kt_worst 2 n) close /\ any_hist [] /\
    coherent KT_model (kt_inv [0; 1]%Z) /\ kt_inv [0; 1]%Z (kt_init [0; 1]%Z) /\ 0 <= kt_off u 2 n <= / 2.
Proof.
  destruct code_example as (HA & Hu & Hbig & _ & HQ & Hb & Hne & Hn & _ & H1 & H2 & H3 & H4 & _). cbv zeta.
  set (u := powerRZ 2 (-52)) in *. set (bits := alternating 50) in *. clearbody bits. rewrite Hn in *.
  assert (I100 : INR 100 = 100) by (rewrite INR_IZR_INZ; reflexivity).
  assert (ND : NoDup [0; 1]%Z) by (repeat constructor; cbn; intuition discriminate).
  assert (H2' : / 1000 <= / (2 * INR (length [0%Z; 1%Z]) * INR 100)).
  { replace (2 * INR (length [0%Z; 1%Z]) * INR 100) with (4 * INR 100); [exact H2|]. cbn [length]. replace (INR 2) with 2 by (cbn; lra). ring. }
  destruct (kt_steady (chopped 52) u 200000 (/ 1000) _ HA HQ Hu [0; 1]%Z 100 ND ltac:(discriminate) ltac:(lia) H1 H2' H3) as (f1 & Hf1 & HS).
  pose proof (off_pos u (/ 1000) Hu [0; 1]%Z 100 ND ltac:(discriminate) ltac:(lia) H1 H2') as Ho.
  change (length [0%Z; 1%Z]) with 2%nat in *.
  assert (HL : exp (- kt_worst 2 100) = / 200).
  { unfold kt_worst. rewrite exp_Ropp, exp_ln by (rewrite I100; cbn; lra). rewrite I100. try (f_equal; cbn; lra). }
  assert (HC : coherent KT_model (kt_inv [0; 1]%Z)) by (apply (lawful_coherent _ any_hist nonneg); [apply kt_lawful|exact I|apply one_ok]).
  assert (HI : kt_inv [0; 1]%Z (kt_init [0; 1]%Z)) by (apply kt_inv_init; [exact ND|discriminate]).
  assert (He : 0 <= kt_off u 2 100 <= / 800) by (rewrite I100 in *; split; [exact Ho|lra]).
  destruct (follows_run _ _ _ _ any_hist 100 _ _ _ _ HS I HC ltac:(lra) bits 0 f1 _ (sd_new _ _ _ _ _ _ _ _ _ _ HS) HI ltac:(lia) Hb) as (Hun & _).
  rewrite HL in *. eexists f1, _. split; [exact Hf1|]. split; [apply (undecided_less _ (/ 200 - 2 * kt_off u 2 100)); [lra|exact Hun]|].
  split; [rewrite I100 in *; lra|]. split; [exact HS|]. split; [exact I|]. split; [exact HC|]. split; [exact HI|]. lra.
Qed.
