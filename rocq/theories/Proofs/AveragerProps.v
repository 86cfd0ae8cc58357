(** Final forms of the statements about the Averager. *)
From Coq Require Import Lra.
From Verif Require Import Model.Averager Model.KT Spec.Prob.
From Verif Require Import Proofs.RealFacts Proofs.PyFacts Proofs.ProbFacts.
From Verif Require Import Proofs.AveragerFacts Proofs.KTFacts Proofs.KTBinFacts.
Open Scope R_scope.

Section averager.
  Context {S : Type} (M : model S).
  Context (A : list Z) (okh : list Z -> Prop) (okw : R -> Prop) (Inv : S -> Prop).

  Lemma averager_mixture ms evs : steps M A okh okw Inv ->
    ms <> [] -> NoDup (map fst ms) -> (forall k m, In (k, m) ms -> Inv m) ->
    Forall (ok_event A okh okw) evs ->
    exists s0 s l, avg_init ms = Ok s0 /\ run (AVG_model M) s0 evs = Ok (s, l) /\
      exp l = / INR (length ms) * Rsum (map (fun km => seq_prob M (snd km) evs) ms).
  Proof.
    intros HS Hne Hnd HI Hev.
    destruct (avg_mixture M A okh okw Inv HS ms evs Hne Hnd HI Hev) as (s0 & s & l & H0 & Hr & _ & _ & _ & Hm).
    exists s0, s, l. auto.
  Qed.

  Lemma averager_normalised ms evs h : lawful M A okh okw Inv -> (exists w, okw w) ->
    ms <> [] -> NoDup (map fst ms) -> (forall k m, In (k, m) ms -> Inv m) ->
    Forall (ok_event A okh okw) evs -> okh h ->
    exists s0 s l, avg_init ms = Ok s0 /\ run (AVG_model M) s0 evs = Ok (s, l) /\
      Rsum (map (fun a => pred_prob (AVG_model M) s a h) A) = 1.
  Proof.
    intros HL Hw Hne Hnd HI Hev Hh. pose proof (law_step _ _ _ _ _ HL) as HS.
    destruct (avg_mixture M A okh okw Inv HS ms evs Hne Hnd HI Hev) as (s0 & s & l & H0 & Hr & HIs & _).
    exists s0, s, l. split; [exact H0|]. split; [exact Hr|].
    apply (law_norm _ _ _ _ _ (avg_lawful M A okh okw Inv HS HL Hw) s h HIs Hh).
  Qed.

  Lemma averager_map ms evs : steps M A okh okw Inv ->
    ms <> [] -> NoDup (map fst ms) -> (forall k m, In (k, m) ms -> Inv m) ->
    Forall (ok_event A okh okw) evs ->
    exists s0 s l k m0 m lm ms1 ms2,
      avg_init ms = Ok s0 /\ run (AVG_model M) s0 evs = Ok (s, l) /\ avg_map s = Ok (k, m) /\
      ms = ms1 ++ (k, m0) :: ms2 /\ run M m0 evs = Ok (m, lm) /\
      (forall km, In km ms -> seq_prob M (snd km) evs <= seq_prob M m0 evs) /\
      (forall km, In km ms1 -> seq_prob M (snd km) evs < seq_prob M m0 evs).
  Proof.
    intros HS Hne Hnd HI Hev.
    destruct (avg_mixture M A okh okw Inv HS ms evs Hne Hnd HI Hev) as (s0 & s & l & H0 & Hr & HIs & [HF _] & _).
    assert (Hmap: exists k m, avg_map s = Ok (k, m)).
    { destruct HIs as (Hne' & _). unfold avg_map. destruct (av_models s) as [|kv d]; [congruence|].
      destruct (max_by kv d) as [k [m lp]]. eauto. }
    destruct Hmap as (k & m & Hmap).
    destruct (avg_map_spec s k m Hmap) as (lp & d1 & d2 & E & Hmax & Hfirst).
    rewrite E in HF. apply Forall2_app_inv_r in HF as (ms1 & ms2' & HF1 & HF2 & Ems).
    inversion HF2 as [|km kv ms2 d2' Hkm HF2' Em Ed]; subst. destruct km as [k0 m0]. cbn [fst snd] in Hkm.
    destruct Hkm as (-> & lm & Hrm & Hlp).
    exists s0, s, l, k, m0, m, lm, ms1, ms2. repeat split; auto.
    - intros km Hin.
      assert (HFa: Forall2 (fun km kv => fst km = fst kv /\ exists l, run M (snd km) evs = Ok (fst (snd kv), l) /\
                          snd (snd kv) = ln (1 / INR (length (ms1 ++ (k, m0) :: ms2))) + l)
                    (ms1 ++ (k, m0) :: ms2) (av_models s)).
      { rewrite E. apply Forall2_app; [exact HF1|]. exact HF2. }
      destruct (In_nth_error _ _ Hin) as (i & Hi).
      assert (Hex: exists kv, nth_error (av_models s) i = Some kv /\ fst km = fst kv /\ exists l, run M (snd km) evs = Ok (fst (snd kv), l) /\
                          snd (snd kv) = ln (1 / INR (length (ms1 ++ (k, m0) :: ms2))) + l).
      { clear -HFa Hi. revert i Hi. generalize (INR (length (ms1 ++ (k, m0) :: ms2))) as N, HFa. clear. intros N HFa.
        induction HFa as [|x y lx ly Hxy HF IH]; intros [|i] Hi; cbn in *; try discriminate.
        - injection Hi as ->. eauto.
        - apply IH. exact Hi. }
      destruct Hex as ([k' [m' lp']] & Hn & _ & l' & Hr' & Hlp'). cbn [fst snd] in *.
      apply nth_error_In in Hn. specialize (Hmax _ _ _ Hn).
      rewrite (seq_prob_run _ _ _ _ _ Hr'), (seq_prob_run _ _ _ _ _ Hrm).
      destruct (Rle_lt_or_eq_dec l' lm) as [Hlt|Heq]; [lra|left; apply exp_increasing; lra|right; congruence].
    - intros km Hin. destruct (In_nth_error _ _ Hin) as (i & Hi).
      assert (Hex: exists kv, nth_error d1 i = Some kv /\ fst km = fst kv /\ exists l, run M (snd km) evs = Ok (fst (snd kv), l) /\
                          snd (snd kv) = ln (1 / INR (length (ms1 ++ (k, m0) :: ms2))) + l).
      { clear -HF1 Hi. revert i Hi HF1. generalize (INR (length (ms1 ++ (k, m0) :: ms2))) as N. clear. intros N i Hi HFa.
        revert i Hi. induction HFa as [|x y lx ly Hxy HF IH]; intros [|i] Hi; cbn in *; try discriminate.
        - injection Hi as ->. eauto.
        - apply IH. exact Hi. }
      destruct Hex as ([k' [m' lp']] & Hn & _ & l' & Hr' & Hlp'). cbn [fst snd] in *.
      apply nth_error_In in Hn. specialize (Hfirst _ _ _ Hn).
      rewrite (seq_prob_run _ _ _ _ _ Hr'), (seq_prob_run _ _ _ _ _ Hrm). apply exp_increasing. lra.
  Qed.
End averager.

(** Listing the same object twice: one dictionary entry, but the prior counts it twice. *)
Lemma averager_duplicates_refuted : exists (ms : list (Z * ktb)) s, ms <> [] /\
  (forall k m, In (k, m) ms -> m = ktb_init) /\ avg_init ms = Ok s /\
  Rsum (map (fun a => pred_prob (AVG_model KTB_model) s a []) [0; 1]%Z) = / 2.
Proof.
  exists [(7%Z, ktb_init); (7%Z, ktb_init)].
  unfold avg_init. replace (INR (length [(7%Z, ktb_init); (7%Z, ktb_init)])) with 2 by (cbn; lra).
  rewrite py_div_ok by lra. cbn [bind]. rewrite py_log_ok by lra. cbn [bind]. eexists.
  split; [discriminate|]. split; [|split; [reflexivity|]].
  - intros k m [H|[H|[]]]; congruence.
  - cbn [fold_left fst snd dict_set map]. cbn [Z.eqb Pos.eqb].
    assert (H: forall a, (a = 0 \/ a = 1)%Z ->
      pred_prob (AVG_model KTB_model) (AVG [(7%Z, (ktb_init, ln (1 / 2)))] 0) a [] = / 4).
    { intros a Ha. unfold pred_prob. cbn [AVG_model m_logp]. unfold avg_log_predict. cbn [av_models mapM av_lp].
      assert (E: m_logp KTB_model ktb_init a [] = Ok (ln (/ 2))).
      { cbn [KTB_model m_logp]. unfold ktb_log_predict, ktb_init.
        destruct Ha as [-> | ->]; rewrite ?py_get2_0, ?py_get2_1; cbn [bind]; rewrite py_div_ok by lra; cbn [bind];
          (rewrite py_log_ok by lra); do 2 f_equal; lra. }
      rewrite E. cbn [bind]. rewrite logsumexp_ok by discriminate. cbn [bind map].
      rewrite Rsum_single, ln_exp, Rminus_0_r, exp_plus, !exp_ln by lra. lra. }
    rewrite !H by tauto. rewrite Rsum_cons, Rsum_single. lra.
Qed.
