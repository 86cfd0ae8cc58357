(** CTW over PTW: trees whose coins change. *)
From Coq Require Import Lra.
From Verif Require Import Model.KT Model.CTW Model.PTW Spec.CombinedSpec Spec.PTWSpec.
From Verif Require Import Proofs.RealFacts Proofs.PyFacts Proofs.ProbFacts Proofs.KTFacts Proofs.KTBinFacts Proofs.KTRedundancy.
From Verif Require Import Proofs.PTWFacts Proofs.PTWTop Proofs.PTWProps Proofs.PTWPredict.
From Verif Require Import Proofs.CTWFacts Proofs.CTWMixture Proofs.CTWTop Proofs.CTWProps.
From Verif Require Import Proofs.SourceFacts Proofs.SourceProps Proofs.SourceCTW Proofs.CombinedFacts Proofs.CombinedTop.
Open Scope R_scope.

Notation one := (fun w : R => w = 1).

Lemma Rprod_ones {X} (f : X -> R) l : (forall x, In x l -> f x = 1) -> Rprod (map f l) = 1.
Proof.
  induction l as [|x l IH]; intros H; cbn [map]; rewrite ?Rprod_cons, ?Rprod_nil; [reflexivity|].
  rewrite (H x (or_introl eq_refl)), IH; [lra|]. intros y Hy. apply H. right. exact Hy.
Qed.

Lemma Rprod_ge1 {X} (f : X -> R) l : (forall x, In x l -> 1 <= f x) -> 1 <= Rprod (map f l).
Proof.
  induction l as [|x l IH]; intros H; cbn [map]; rewrite ?Rprod_cons, ?Rprod_nil; [lra|].
  specialize (IH (fun y Hy => H y (or_intror Hy))). specialize (H x (or_introl eq_refl)). nra.
Qed.

Lemma Rprod_ge2 {X} (f : X -> R) l x : (forall x, In x l -> 1 <= f x) -> In x l -> f x = 2 -> 2 <= Rprod (map f l).
Proof.
  induction l as [|y l IH]; intros H Hin Hx; [destruct Hin|]. cbn [map]. rewrite Rprod_cons.
  pose proof (H y (or_introl eq_refl)) as Hy. assert (H' : forall z, In z l -> 1 <= f z) by (intros z Hz; apply H; right; exact Hz).
  destruct Hin as [->|Hin].
  - pose proof (Rprod_ge1 f l H'). rewrite Hx. lra.
  - specialize (IH H' Hin Hx). nra.
Qed.

Section tree.
  Variables (K : list Z) (D : nat) (t : ctree).
  Hypothesis HK : NoDup K.
  Hypothesis H0 : In 0%Z K.
  Hypothesis Ht : is_tree K D t.
  Notation leaf e := (leaf_at K [] t (recent D (ev_hist e))).

  Lemma one_leaf f e : incl (ev_hist e) K -> Rprod (map (fun v => hit (recent D) f v e) (leaves K [] t)) = f (leaf e).
  Proof.
    intros Hh. apply (hit_leaves K (recent D) HK f e D t [] (recent D (ev_hist e)) Ht eq_refl); [rewrite recent_length; lia|].
    apply recent_incl; assumption.
  Qed.

  Definition marks (v u : list Z) : R := if list_eq_dec Z.eq_dec u v then 2 else 1.
  Lemma marks_ge v u : 1 <= marks v u.
  Proof. unfold marks. destruct list_eq_dec; lra. Qed.
  Lemma hit_marks_ge v u e : 1 <= hit (recent D) (marks v) u e.
  Proof. unfold hit. destruct (matches _ _ _); [apply marks_ge|lra]. Qed.

  Lemma leaf_in e : incl (ev_hist e) K -> In (leaf e) (leaves K [] t).
  Proof.
    intros Hh. pose proof (one_leaf (marks (leaf e)) e Hh) as H.
    destruct (in_dec (list_eq_dec Z.eq_dec) (leaf e) (leaves K [] t)) as [|N]; [assumption|exfalso].
    rewrite Rprod_ones in H.
    - unfold marks in H. destruct (list_eq_dec Z.eq_dec (leaf e) (leaf e)); [lra|congruence].
    - intros u Hu. unfold hit. destruct (matches _ _ _); [|reflexivity]. unfold marks.
      destruct (list_eq_dec Z.eq_dec u (leaf e)) as [->|]; [contradiction|reflexivity].
  Qed.

  Lemma leaf_matches v e : incl (ev_hist e) K -> In v (leaves K [] t) ->
    matches (recent D) v e = if list_eq_dec Z.eq_dec (leaf e) v then true else false.
  Proof.
    intros Hh Hv. pose proof (one_leaf (marks v) e Hh) as H.
    destruct (matches (recent D) v e) eqn:E; destruct (list_eq_dec Z.eq_dec (leaf e) v) as [El|El]; try reflexivity; exfalso.
    - assert (2 <= Rprod (map (fun u => hit (recent D) (marks v) u e) (leaves K [] t))).
      { apply (Rprod_ge2 _ _ v); [intros; apply hit_marks_ge|exact Hv|]. unfold hit. rewrite E. unfold marks.
        destruct (list_eq_dec Z.eq_dec v v); [reflexivity|congruence]. }
      rewrite H in H1. unfold marks in H1. destruct (list_eq_dec Z.eq_dec (leaf e) v); [contradiction|lra].
    - rewrite Rprod_ones in H.
      + unfold marks in H. rewrite El in H. destruct (list_eq_dec Z.eq_dec v v); [lra|congruence].
      + intros u Hu. unfold hit. destruct (matches (recent D) u e) eqn:Eu; [|reflexivity]. unfold marks.
        destruct (list_eq_dec Z.eq_dec u v) as [->|]; [congruence|reflexivity].
  Qed.

  Variable theta : list Z -> nat -> R.

  Lemma tossed_leaves evs : forall before, Forall (fun e => incl (ev_hist e) K) (before ++ evs) ->
    Rprod (map (fun v => drift_prob (theta v) 0 (syms (sel (recent D) v before))) (leaves K [] t)) * tossed K D theta t before evs =
    Rprod (map (fun v => drift_prob (theta v) 0 (syms (sel (recent D) v (before ++ evs)))) (leaves K [] t)).
  Proof.
    induction evs as [|e evs IH]; intros before Hh; cbn [tossed]; [rewrite app_nil_r; lra|].
    pose proof Hh as Hh'. apply Forall_app in Hh' as [Hb He]. inversion He as [|x y He1 He2]; subst.
    replace (before ++ e :: evs) with ((before ++ [e]) ++ evs) in * by (rewrite <- app_assoc; reflexivity).
    rewrite <- (IH _ Hh), <- Rmult_assoc. f_equal.
    set (earlier := filter _ before).
    assert (E : length earlier = length (sel (recent D) (leaf e) before)).
    { unfold earlier, sel. clear IH Hh He He2 earlier. induction Hb as [|e' l He' Hl IH]; [reflexivity|].
      cbn [filter]. rewrite (leaf_matches (leaf e) e' He' (leaf_in e He1)).
      destruct (list_eq_dec Z.eq_dec (leaf e') (leaf e)); cbn [length]; rewrite IH; reflexivity. }
    rewrite E.
    rewrite <- (one_leaf (fun v => coin (theta v (length (sel (recent D) v before))) (ev_sym e)) e He1).
    rewrite <- Rprod_map_mult. apply Rprod_map_ext. intros v _. unfold sel. rewrite filter_app, map_app, drift_app. cbn [filter]. unfold hit.
    destruct (matches (recent D) v e); cbn [map drift_prob]; [|lra]. rewrite map_length, Nat.add_0_l. unfold sel. lra.
  Qed.
End tree.

Lemma ktb_lawful_one : lawful KTB_model [0; 1]%Z any_hist one ktb_inv.
Proof.
  destruct ktb_lawful as [H1 H2]. split; [|exact H2]. intros s a h w Hs Ha Hh ->. apply H1; try assumption. unfold nonneg. lra.
Qed.

Definition leaf_price (m : nat) (cps : list nat) (n : nat) : R :=
  let d := levels m n in let k := length cps in
  INR (1 + k * d) * learn n + INR (1 + 2 * k * d) * ln 2 + INR (pred d) * ln (3 / 2).

Section ctw_ptw.
  Variables (binary : bool) (K : list Z) (D m : nat).
  Hypothesis HK : NoDup K.
  Hypothesis H0 : In 0%Z K.
  Hypothesis HB : binary = true -> incl K [0; 1]%Z.
  Hypothesis HD : (0 < D)%nat.
  Notation PM := (PTW_model KTB_model m ktb_init).
  Notation base := (ptw_init m ktb_init).

  Lemma base_steps : steps (by_update PM) [0; 1]%Z any_hist one (ptw_inv KTB_model [0; 1]%Z any_hist ktb_init m).
  Proof. exact (ptw_steps KTB_model _ _ _ ktb_lawful_one ktb_init ktb_inv_init m). Qed.

  Lemma ctw_of_ptw theta cps t evs : is_tree K D t -> (forall v i, 0 <= theta v i <= 1) ->
    (forall v, changes_at (theta v) (cps v)) -> (forall v, Forall (fun c => c mod 2 ^ m = 0)%nat (cps v)) ->
    Forall (bit_after K) evs -> 0 < tossed K D theta t [] evs ->
    exists s l, run (CTW_model PM base binary) (ctw_init base (Z.of_nat D)) evs = Ok (s, l) /\
      - l <= - ln (tossed K D theta t [] evs)
             + Rsum (map (fun v => leaf_price m (cps v) (length (sel (recent D) v evs))) (leaves K [] t))
             + INR (cost D t) * ln 2.
  Proof.
    intros Ht Hth Hch Hcps Hev Hpos. destruct (bits_after _ _ Hev) as [Hu Hh].
    assert (Hok : Forall (fun e => ok_event [0; 1]%Z any_hist one e /\ incl (ev_hist e) K) evs).
    { eapply Forall_impl; [|exact Hev]. intros e [[Hs Hw] Hi]. repeat split; try assumption. cbn. destruct Hs as [->| ->]; auto. }
    destruct (ctw_total_mixture (by_update PM) base binary [0; 1]%Z any_hist one _ K D base_steps (ptw_inv_init _ _ _ _ _) HK H0 HB HD evs Hok)
      as (s & l & Hr & _).
    exists s, l. split; [exact Hr|].
    pose proof (ctw_total_regret (by_update PM) base binary [0; 1]%Z any_hist one _ K D base_steps (ptw_inv_init _ _ _ _ _) HK H0 HB HD evs t s l Hok Ht Hr) as Hreg.
    pose proof (tossed_leaves K D t HK H0 Ht theta evs [] Hh) as Hsrc.
    rewrite Rprod_ones, Rmult_1_l, app_nil_l in Hsrc by reflexivity.
    set (price := fun v => leaf_price m (cps v) (length (sel (recent D) v evs))) in *.
    assert (Hle : tossed K D theta t [] evs * exp (- Rsum (map price (leaves K [] t)))
                  <= tree_prob (by_update PM) base (recent D) K [] t evs).
    { rewrite (tree_prob_leaves K (recent D) (by_update PM) base D evs t [] Ht), Hsrc.
      replace (- Rsum (map price (leaves K [] t))) with (Rsum (map (fun v => -1 * price v) (leaves K [] t))) by (rewrite Rsum_scal_l; lra).
      rewrite <- Rprod_exp, <- Rprod_map_mult. apply Rprod_le. intros v _. split.
      - apply Rmult_le_pos; [apply drift_nonneg, Hth|left; apply exp_pos].
      - unfold node_prob. rewrite by_update_seq. set (es := sel (recent D) v evs) in *.
        assert (Hue : unit_bits es) by (unfold es, unit_bits; apply sel_forall; exact Hu).
        destruct (Rle_lt_or_eq_dec _ _ (drift_nonneg (theta v) (syms es) (Hth v) 0)) as [Hp|<-].
        + destruct (ptw_drift (theta v) (cps v) m es (Hth v) (Hch v) (Hcps v) Hue Hp) as (s1 & l1 & Hr1 & Hl1).
          rewrite (seq_prob_run _ _ _ _ _ Hr1). rewrite <- (exp_ln (drift_prob (theta v) 0 (syms es))) by exact Hp. rewrite <- exp_plus.
          assert (Hx : ln (drift_prob (theta v) 0 (syms es)) + -1 * price v <= l1) by (unfold price, leaf_price; fold es; lra).
          destruct (Rle_lt_or_eq_dec _ _ Hx) as [H|H]; [left; apply exp_increasing; exact H|rewrite H; lra].
        + rewrite Rmult_0_l. left. rewrite <- by_update_seq.
          apply (steps_seq_prob_pos _ _ _ _ _ base_steps); [apply ptw_inv_init|]. unfold es.
          apply sel_forall. eapply Forall_impl; [|exact Hok]. intros e [He _]. exact He. }
    apply KTRedundancy.ln_le in Hle; [|apply Rmult_lt_0_compat; [exact Hpos|apply exp_pos]].
    rewrite ln_mult, ln_exp in Hle by (auto using exp_pos). lra.
  Qed.

  (** The updates are a probability measure. *)
  Lemma ctw_of_ptw_measure evs h : Forall (bit_after K) evs -> incl h K ->
    exists s l, run (CTW_model PM base binary) (ctw_init base (Z.of_nat D)) evs = Ok (s, l) /\
      Rsum (map (fun a => upd_prob (ctw_update PM base binary) s a h 1) [0; 1]%Z) = 1.
  Proof.
    intros Hev Hh. pose proof (ptw_lawful KTB_model _ _ _ ktb_lawful_one ktb_init ktb_inv_init m) as HL.
    pose proof (ctw_lawful (by_update PM) base binary [0; 1]%Z any_hist one _ K D base_steps (ptw_inv_init _ _ _ _ _) HK H0 HB HD HL eq_refl) as HC.
    assert (Hok : Forall (ok_event [0; 1]%Z (okhK any_hist K) one) evs).
    { eapply Forall_impl; [|exact Hev]. intros e [[Hs Hw] Hi]. repeat split; try assumption. cbn. destruct Hs as [->| ->]; auto. }
    destruct (steps_run _ _ _ _ _ (law_step _ _ _ _ _ HC) _ evs (ctw_inv_init _ _ _ _ _ _ _) Hok) as (s & l & Hr & Hs).
    exists s, l. split; [exact Hr|]. etransitivity; [|exact (law_norm _ _ _ _ _ HC s h Hs (conj I Hh))].
    apply Rsum_map_ext. intros a Ha. unfold pred_prob, upd_prob.
    destruct (law_step _ _ _ _ _ HC s a h 1 Hs Ha (conj I Hh) eq_refl) as (s' & x & Hu & Hp & _).
    assert (Hu' : ctw_update PM base binary s a h 1 = Ok (s', x)) by exact Hu. rewrite Hu', Hp. reflexivity.
  Qed.
End ctw_ptw.

(** ** log_predict of a CTW over PTW is not a distribution *)
Lemma ctw_one_step {St} (M : model St) fresh binary s1 l1 : m_update M fresh 0 [] 1 = Ok (s1, l1) ->
  exists s l, run (CTW_model M fresh binary) (ctw_init fresh 1) [Event 0 [] 1] = Ok (s, l) /\
    forall a p, m_logp M s1 a [0%Z] = Ok p -> exists p', m_logp (CTW_model M fresh binary) s a [0%Z] = Ok p' /\ exp p' = exp p.
Proof.
  intros H. assert (E : child_key binary 0 = Ok 0%Z) by (destruct binary; reflexivity).
  do 2 eexists. split.
  - cbn [run CTW_model m_update ev_sym ev_hist ev_wt]. unfold ctw_update, ctw_update_with. cbn [ctw_depth ctw_init ctw_tree].
    change (rev (mkcontext 1 [])) with [0%Z]. unfold new_node. cbn [node_update]. rewrite H. cbn [bind]. rewrite E. cbn [bind dict_get new_node node_update].
    unfold new_node. cbn [node_update]. rewrite H. cbn [bind]. reflexivity.
  - intros a p Hp. eexists. split.
    + cbn [CTW_model m_logp]. unfold ctw_log_predict, ctw_log_predict_with. cbn [ctw_depth ctw_tree].
      change (rev (mkcontext 1 [0%Z])) with [0%Z]. cbn [node_log_predict dict_set]. rewrite Hp. cbn [bind]. rewrite E. cbn [bind dict_get].
      rewrite Z.eqb_refl. cbn [node_log_predict]. rewrite Hp. cbn [bind]. reflexivity.
    + rewrite exp_minus, !mix_exp, !exp_plus, !exp_minus, !exp_plus, !exp_0. pose proof (exp_pos l1). field. lra.
Qed.

Lemma ctw_of_ptw_predict binary : exists s l,
  run (CTW_model (PTW_model KTB_model 0 ktb_init) (ptw_init 0 ktb_init) binary) (ctw_init (ptw_init 0 ktb_init) 1) [Event 0 [] 1] = Ok (s, l) /\
  1 < Rsum (map (fun a => pred_prob (CTW_model (PTW_model KTB_model 0 ktb_init) (ptw_init 0 ktb_init) binary) s a [0%Z]) [0; 1]%Z).
Proof.
  assert (Hev : Forall (ok_event [0; 1]%Z any_hist nonneg) [Event 0 [] 1]).
  { constructor; [|constructor]. repeat split; cbn; auto. unfold nonneg. lra. }
  destruct (ptw_feed KTB_model [0; 1]%Z any_hist nonneg ktb_inv (law_step _ _ _ _ _ ktb_lawful) (fun _ => ktb_init) ktb_mk_inv 0 _ Hev) as (s1 & Hf & _).
  pose proof (ptw_predict_boundary KTB_model [0; 1]%Z any_hist nonneg ktb_inv ktb_lawful (fun _ => ktb_init) ktb_mk_inv 0 ltac:(cbn; lia)
    _ s1 (pt_lp s1) [0%Z] 1 Hev I ltac:(unfold nonneg; lra) ltac:(discriminate) eq_refl Hf) as Hb.
  cbn [feed ev_sym ev_hist ev_wt] in Hf.
  destruct (ptw_update KTB_model 0 ktb_init (ptw_init 0 ktb_init) 0 [] 1) as [[s2 l2]|] eqn:Hu; [|discriminate]. cbn [bind] in Hf. injection Hf as -> _.
  destruct (ctw_one_step (PTW_model KTB_model 0 ktb_init) (ptw_init 0 ktb_init) binary s1 l2 Hu) as (s & l & Hr & Hp).
  exists s, l. split; [exact Hr|]. eapply Rlt_le_trans; [exact Hb|]. apply Rsum_le. intros a Ha. unfold pred_prob.
  destruct (ptw_log_predict KTB_model s1 a [0%Z]) as [p|] eqn:Ep.
  - destruct (Hp a p Ep) as (p' & -> & ->). apply Rle_refl.
  - destruct (m_logp _ s a [0%Z]); [left; apply exp_pos|apply Rle_refl].
Qed.
