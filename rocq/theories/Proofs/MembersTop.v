(** Averager over models that learn. *)
From Coq Require Import Lra Lia.
From Verif Require Import Model.KT Model.CTW Model.PTW Model.FMN Model.Averager Spec.LearnSpec Spec.PTWSpec Spec.FMNSpec.
From Verif Require Import Proofs.RealFacts Proofs.PyFacts Proofs.ProbFacts Proofs.KTFacts Proofs.AveragerFacts.
From Verif Require Import Proofs.CTWFacts Proofs.CTWTop Proofs.CTWProps Proofs.SourceProps Proofs.CombinedFacts.
From Verif Require Import Proofs.LearnEst Proofs.LearnTop.
Open Scope R_scope.

Section members.
  Context {St : Type} (M : model St) (A : list Z) (okh : list Z -> Prop) (okw : R -> Prop) (Inv : St -> Prop).
  Hypothesis HS : steps M A okh okw Inv.
  Variable ms : list (Z * St).
  Hypothesis Hne : ms <> [].
  Hypothesis Hkeys : NoDup (map fst ms).
  Hypothesis HI : forall k x, In (k, x) ms -> Inv x.
  Context (src : Z -> (event -> R) -> Prop) (price : nat -> R) (ok : event -> Prop).
  Hypothesis Hok : forall e, ok e -> ok_event A okh okw e.
  Hypothesis Hlearn : forall k x, In (k, x) ms -> learns M x ok (src k) price.
  Notation some_src := (fun r => exists k, In k (map fst ms) /\ src k r).
  Notation avg_price := (fun n => price n + ln (INR (length ms))).

  Theorem avg_learns : exists s0, avg_init ms = Ok s0 /\ learns (AVG_model M) s0 ok some_src avg_price.
  Proof.
    destruct (avg_init_ok M Inv ms Hne Hkeys HI) as (s0 & Hs0 & Hinv & _). exists s0. split; [exact Hs0|].
    intros r evs (k & Hk & Hr) Hev Hpos. apply in_map_iff in Hk as ([k' x] & E & Hin). cbn in E. subst k'.
    assert (Hev2 : Forall (ok_event A okh okw) evs) by (eapply Forall_impl; [|exact Hev]; exact Hok).
    destruct (steps_run _ _ _ _ _ (avg_steps M A okh okw Inv HS) s0 evs Hinv Hev2) as (s & l & Hrun & _).
    destruct (steps_run _ _ _ _ _ HS x evs (HI k x Hin) Hev2) as (s' & li & Hrunx & _).
    destruct (avg_regret M A okh okw Inv HS ms evs s0 s l Hne Hkeys HI Hev2 Hs0 Hrun) as [G _].
    specialize (G k x s' li Hin Hrunx). pose proof (Hlearn k x Hin r evs Hr Hev Hpos) as HL.
    rewrite (seq_prob_run _ _ _ _ _ Hrunx), ln_exp in HL. rewrite (seq_prob_run _ _ _ _ _ Hrun), ln_exp. lra.
  Qed.

  Theorem avg_completes : exists s0, avg_init ms = Ok s0 /\ forall r evs, (exists k, In k (map fst ms) /\ src k r) -> Forall ok evs -> 0 < Rprod (map r evs) ->
    exists s l, run (AVG_model M) s0 evs = Ok (s, l) /\ - l <= - ln (Rprod (map r evs)) + price (length evs) + ln (INR (length ms)).
  Proof.
    destruct avg_learns as (s0 & Hs0 & HL). destruct (avg_init_ok M Inv ms Hne Hkeys HI) as (s1 & Hs1 & Hinv & _).
    rewrite Hs0 in Hs1. injection Hs1 as <-. exists s0. split; [exact Hs0|]. intros r evs Hr Hev Hpos.
    assert (Hev2 : Forall (ok_event A okh okw) evs) by (eapply Forall_impl; [|exact Hev]; exact Hok).
    destruct (steps_run _ _ _ _ _ (avg_steps M A okh okw Inv HS) s0 evs Hinv Hev2) as (s & l & Hrun & _). exists s, l. split; [exact Hrun|].
    specialize (HL r evs Hr Hev Hpos). rewrite (seq_prob_run _ _ _ _ _ Hrun), ln_exp in HL. cbn beta in HL. lra.
  Qed.

  Hypothesis Hmono : forall a b, (a <= b)%nat -> price a <= price b.
  Hypothesis Hprice : forall n, 0 <= price n.
  Variables (q : nat -> event -> R) (cps : list nat) (m : nat) (evs : list event).
  Hypothesis Hq0 : forall t e, 0 <= q t e.
  Hypothesis Hq : forall t, exists k, In k (map fst ms) /\ src k (q t).
  Hypothesis Hch : changes_only q cps.
  Hypothesis Hcps : Forall (fun c => c mod 2 ^ m = 0)%nat cps.
  Hypothesis Hev : Forall ok evs.
  Hypothesis Hpos : 0 < source_prob q 0 evs.
  Let n := length evs.
  Let d := levels m n.
  Let c := length cps.

  Lemma members_price : 0 <= ln (INR (length ms)).
  Proof.
    rewrite <- ln_1. assert (1 <= INR (length ms)) by (change 1 with (INR 1); apply le_INR; destruct ms; [congruence|cbn; lia]).
    apply KTRedundancy.ln_le; lra.
  Qed.

  Theorem ptw_avg_tracks : exists s0 s l, avg_init ms = Ok s0 /\ run (PTW_model (AVG_model M) m s0) (ptw_init m s0) evs = Ok (s, l) /\
    - l <= - ln (source_prob q 0 evs) + INR (1 + c * d) * (price n + ln (INR (length ms))) + INR (1 + 2 * c * d) * ln 2 + INR (pred d) * ln (3 / 2).
  Proof.
    destruct avg_learns as (s0 & Hs0 & HL). destruct (avg_init_ok M Inv ms Hne Hkeys HI) as (s1 & Hs1 & Hinv & _).
    rewrite Hs0 in Hs1. injection Hs1 as <-. exists s0. pose proof members_price as HP.
    destruct (ptw_tracks (AVG_model M) A okh okw _ (avg_steps M A okh okw Inv HS) s0 Hinv some_src avg_price ok Hok HL
      (fun a b Hab => Rplus_le_compat_r _ _ _ (Hmono a b Hab)) (fun i => Rplus_le_le_0_compat _ _ (Hprice i) HP)
      q Hq0 Hq cps Hch m Hcps evs Hev Hpos) as (s & l & Hr & Hl).
    exists s, l. split; [exact Hs0|]. split; [exact Hr|exact Hl].
  Qed.

  Theorem fmn_avg_tracks : exists s0 f s l, avg_init ms = Ok s0 /\ fmn_init (LogStore_class _) m s0 = Ok f /\
    run (FMN_model (AVG_model M) (LogStore_class _) m) f evs = Ok (s, l) /\
    - l <= - ln (source_prob q 0 evs) + INR (1 + c * d) * (price n + ln (INR (length ms)) + ln (INR (Nat.log2 (1 + n / 2 ^ m) + 1)))
           + INR (1 + 2 * c * d) * ln 2 + INR (pred d) * ln (3 / 2).
  Proof.
    destruct avg_learns as (s0 & Hs0 & HL). destruct (avg_init_ok M Inv ms Hne Hkeys HI) as (s1 & Hs1 & Hinv & _).
    rewrite Hs0 in Hs1. injection Hs1 as <-. exists s0. pose proof members_price as HP.
    destruct (fmn_tracks (AVG_model M) A okh okw _ (avg_steps M A okh okw Inv HS) s0 Hinv some_src avg_price ok Hok HL
      (fun a b Hab => Rplus_le_compat_r _ _ _ (Hmono a b Hab)) (fun i => Rplus_le_le_0_compat _ _ (Hprice i) HP)
      q Hq0 Hq cps Hch m Hcps evs Hev Hpos) as (f & s & l & Hf & Hr & Hl).
    exists f, s, l. split; [exact Hs0|]. split; [exact Hf|]. split; [exact Hr|exact Hl].
  Qed.
End members.

(** Members that are CTWs of several depths over KT. *)
Section kt.
  Variable A : list Z.
  Hypothesis HA : NoDup A.
  Let k := length A.
  Hypothesis Hk : (2 <= k)%nat.
  Variables (binary : bool) (K : list Z).
  Hypothesis HK : NoDup K.
  Hypothesis H0 : In 0%Z K.
  Hypothesis HB : binary = true -> incl K [0; 1]%Z.
  Variable depths : list (Z * nat).
  Hypothesis Hne : depths <> [].
  Hypothesis Hkeys : NoDup (map fst depths).
  Hypothesis Hd : Forall (fun kd => 0 < snd kd)%nat depths.
  Let CM := CTW_model KT_model (kt_init A) binary.
  Let member (kd : Z * nat) := (fst kd, ctw_init (kt_init A) (Z.of_nat (snd kd))).
  Let Inv (s : ctw) := exists D, (0 < D)%nat /\ ctw_inv KT_model (kt_init A) A any_hist nonneg K D s.
  Let ok e := symbol_of A e /\ incl (ev_hist e) K.
  Variables (L C : nat).
  Let src key r := exists D, In (key, D) depths /\ tree_of (memoryless A) K D L C r.

  Lemma members_steps : steps CM A (okhK any_hist K) nonneg Inv.
  Proof.
    intros s a h w (D & HD & Hs) Ha Hh Hw.
    destruct (ctw_steps KT_model (kt_init A) binary A any_hist nonneg (kt_inv A) K D (law_step _ _ _ _ _ (kt_lawful A)) (kt_inv_init A HA (A_ne A Hk))
      HK H0 HB HD s a h w Hs Ha Hh Hw) as (s' & l & Hu & Hp & H').
    exists s', l. split; [exact Hu|]. split; [exact Hp|]. exists D. split; assumption.
  Qed.

  Lemma members_inv key x : In (key, x) (map member depths) -> Inv x.
  Proof.
    intros Hin. apply in_map_iff in Hin as ([k0 D] & E & Hin). injection E as <- <-. cbn [snd]. exists D.
    split; [rewrite Forall_forall in Hd; exact (Hd _ Hin)|apply ctw_inv_init].
  Qed.

  Lemma members_learn key x : In (key, x) (map member depths) -> learns CM x ok (src key) (fun n => INR L * learn_any (length A) n + INR C * ln 2).
  Proof.
    intros Hin r evs (D' & HD' & Hr). apply in_map_iff in Hin as ([k0 D] & E & Hin). injection E as <- <-. cbn [fst snd] in *.
    assert (D' = D).
    { clear - Hkeys HD' Hin. induction depths as [|[k1 D1] l IH]; [destruct Hin|]. cbn in Hkeys. inversion Hkeys as [|y z Hn Hl]; subst.
      destruct Hin as [E1|Hin], HD' as [E2|HD']; try congruence.
      - injection E1 as -> ->. destruct Hn. apply (in_map fst) in HD'. exact HD'.
      - injection E2 as -> ->. destruct Hn. apply (in_map fst) in Hin. exact Hin.
      - exact (IH Hl Hin HD'). }
    subst D'. exact (ctw_of_kt A HA Hk binary K D HK H0 HB (proj1 (Forall_forall _ _) Hd _ Hin) L C r evs Hr).
  Qed.

  Lemma member_keys : map fst (map member depths) = map fst depths.
  Proof. rewrite map_map. reflexivity. Qed.
  Lemma member_ne : map member depths <> [].
  Proof. destruct depths; [congruence|discriminate]. Qed.
  Lemma member_ok e : ok e -> ok_event A (okhK any_hist K) nonneg e.
  Proof. intros [[G1 G2] G3]. split; [exact G1|]. split; [split; [exact I|exact G3]|]. rewrite G2. unfold nonneg. lra. Qed.
  Lemma member_nodup : NoDup (map fst (map member depths)).
  Proof. rewrite member_keys. exact Hkeys. Qed.

  Theorem avg_ctw_kt : exists s0, avg_init (map (fun kd => (fst kd, ctw_init (kt_init A) (Z.of_nat (snd kd)))) depths) = Ok s0 /\
    learns (AVG_model CM) s0 (fun e => symbol_of A e /\ incl (ev_hist e) K) (fun r => exists D, In D (map snd depths) /\ tree_of (memoryless A) K D L C r)
      (fun n => INR L * learn_any (length A) n + INR C * ln 2 + ln (INR (length depths))).
  Proof.
    destruct (avg_learns CM A (okhK any_hist K) nonneg Inv members_steps (map member depths) member_ne member_nodup members_inv
      src _ ok member_ok members_learn) as (s0 & Hs0 & HL).
    exists s0. split; [exact Hs0|]. rewrite map_length in HL. intros r evs (D & HD & Hr). apply HL.
    apply in_map_iff in HD as ([key D'] & E & Hin). cbn in E. subst D'. exists key. split; [rewrite member_keys; apply (in_map fst) in Hin; exact Hin|].
    exists D. split; assumption.
  Qed.

  Theorem avg_ctw_kt_runs : exists s0, avg_init (map (fun kd => (fst kd, ctw_init (kt_init A) (Z.of_nat (snd kd)))) depths) = Ok s0 /\
    forall r evs, (exists D, In D (map snd depths) /\ tree_of (memoryless A) K D L C r) -> Forall (fun e => symbol_of A e /\ incl (ev_hist e) K) evs ->
    0 < Rprod (map r evs) -> exists s l, run (AVG_model CM) s0 evs = Ok (s, l) /\
      - l <= - ln (Rprod (map r evs)) + (INR L * learn_any (length A) (length evs) + INR C * ln 2) + ln (INR (length depths)).
  Proof.
    destruct (avg_completes CM A (okhK any_hist K) nonneg Inv members_steps (map member depths) member_ne member_nodup members_inv
      src _ ok member_ok members_learn) as (s0 & Hs0 & HL).
    exists s0. split; [exact Hs0|]. rewrite map_length in HL. intros r evs (D & HD & Hr). apply HL.
    apply in_map_iff in HD as ([key D'] & E & Hin). cbn in E. subst D'. exists key. split; [rewrite member_keys; apply (in_map fst) in Hin; exact Hin|].
    exists D. split; assumption.
  Qed.

  Theorem fmn_avg_ctw_kt q cps m evs : (forall t, exists D, In D (map snd depths) /\ tree_of (memoryless A) K D L C (q t)) ->
    changes_only q cps -> Forall (fun c => c mod 2 ^ m = 0)%nat cps -> Forall (fun e => symbol_of A e /\ incl (ev_hist e) K) evs ->
    0 < source_prob q 0 evs -> let n := length evs in let d := levels m n in let c := length cps in
    exists s0 f s l, avg_init (map (fun kd => (fst kd, ctw_init (kt_init A) (Z.of_nat (snd kd)))) depths) = Ok s0 /\
      fmn_init (LogStore_class _) m s0 = Ok f /\ run (FMN_model (AVG_model CM) (LogStore_class _) m) f evs = Ok (s, l) /\
      - l <= - ln (source_prob q 0 evs)
             + INR (1 + c * d) * (INR L * learn_any (length A) n + INR C * ln 2 + ln (INR (length depths)) + ln (INR (Nat.log2 (1 + n / 2 ^ m) + 1)))
             + INR (1 + 2 * c * d) * ln 2 + INR (pred d) * ln (3 / 2).
  Proof.
    intros Hq Hch Hcps Hev Hpos n d c.
    pose proof (fmn_avg_tracks CM A (okhK any_hist K) nonneg Inv members_steps (map member depths) member_ne member_nodup members_inv
      src (fun n => INR L * learn_any (length A) n + INR C * ln 2) ok member_ok members_learn) as G.
    rewrite map_length in G. apply G; try assumption.
    - intros a b Hab. pose proof (Rmult_le_compat_l _ _ _ (pos_INR L) (learn_any_mono A Hk a b Hab)). unfold k in *. lra.
    - intros N. pose proof (Rmult_le_pos _ _ (pos_INR L) (learn_any_nonneg A Hk N)). assert (Hl2 : 0 < ln 2) by (rewrite <- ln_1; apply ln_increasing; lra). pose proof (Rmult_le_pos _ _ (pos_INR C) (Rlt_le _ _ Hl2)). unfold k in *. lra.
    - intros t e. destruct (Hq t) as (D & _ & p & tr & _ & _ & _ & Hp & E). rewrite E. exact (memoryless_nonneg A _ e (Hp _)).
    - intros t. destruct (Hq t) as (D & HD & Hr). apply in_map_iff in HD as ([key D'] & E & Hin). cbn in E. subst D'. exists key.
      split; [rewrite member_keys; apply (in_map fst) in Hin; exact Hin|]. exists D. split; assumption.
  Qed.
End kt.
