(** CTW over PTW over any model that learns: trees whose sources change, each at times of its own. *)
From Coq Require Import Lra Lia.
From Verif Require Import Model.KT Model.CTW Model.PTW Spec.LeavesSpec Spec.PTWSpec.
From Verif Require Import Proofs.RealFacts Proofs.PyFacts Proofs.ProbFacts Proofs.KTFacts Proofs.KTRedundancy.
From Verif Require Import Proofs.PTWFacts Proofs.PTWTop Proofs.PTWProps Proofs.PTWPredict.
From Verif Require Import Proofs.CTWFacts Proofs.CTWMixture Proofs.CTWTop Proofs.CTWProps.
From Verif Require Import Proofs.SourceFacts Proofs.SourceProps Proofs.SourceCTW Proofs.CombinedFacts Proofs.CombinedTop Proofs.CombinedTree.
From Verif Require Import Proofs.LearnEst Proofs.LearnTop.
Open Scope R_scope.

Section tree.
  Variables (K : list Z) (D : nat) (t : ctree).
  Hypothesis HK : NoDup K.
  Hypothesis H0 : In 0%Z K.
  Hypothesis Ht : is_tree K D t.
  Notation leaf e := (leaf_at K [] t (recent D (ev_hist e))).
  Variable q : list Z -> nat -> event -> R.

  Lemma emitted_leaves evs : forall before, Forall (fun e => incl (ev_hist e) K) (before ++ evs) ->
    Rprod (map (fun v => source_prob (q v) 0 (sel (recent D) v before)) (leaves K [] t)) * emitted K D q t before evs =
    Rprod (map (fun v => source_prob (q v) 0 (sel (recent D) v (before ++ evs))) (leaves K [] t)).
  Proof.
    induction evs as [|e evs IH]; intros before Hh; cbn [emitted]; [rewrite app_nil_r; lra|].
    pose proof Hh as Hh'. apply Forall_app in Hh' as [Hb He]. inversion He as [|x y He1 He2]; subst.
    replace (before ++ e :: evs) with ((before ++ [e]) ++ evs) in * by (rewrite <- app_assoc; reflexivity).
    rewrite <- (IH _ Hh), <- Rmult_assoc. f_equal.
    set (earlier := filter _ before).
    assert (E : length earlier = length (sel (recent D) (leaf e) before)).
    { unfold earlier, sel. clear IH Hh He He2 earlier. induction Hb as [|e' l He' Hl IH]; [reflexivity|].
      cbn [filter]. rewrite (leaf_matches K D t HK H0 Ht (leaf e) e' He' (leaf_in K D t HK H0 Ht e He1)).
      destruct (list_eq_dec Z.eq_dec (leaf e') (leaf e)); cbn [length]; rewrite IH; reflexivity. }
    rewrite E.
    rewrite <- (one_leaf K D t HK H0 Ht (fun v => q v (length (sel (recent D) v before)) e) e He1).
    rewrite <- Rprod_map_mult. apply Rprod_map_ext. intros v _. unfold sel. rewrite filter_app, source_app. cbn [filter]. unfold hit.
    destruct (matches (recent D) v e); cbn [source_prob]; [|lra]. rewrite Nat.add_0_l. unfold sel. lra.
  Qed.
End tree.

Section ctw_ptw.
  Context {St : Type} (M : model St) (A : list Z) (okh : list Z -> Prop) (Inv : St -> Prop).
  Hypothesis HL : lawful M A okh (fun w => w = 1) Inv.
  Variable fresh : St.
  Hypothesis Hfresh : Inv fresh.
  Context (src : (event -> R) -> Prop) (price : nat -> R) (ok : event -> Prop).
  Hypothesis Hok : forall e, ok e -> ok_event A okh (fun w => w = 1) e.
  Hypothesis Hlearn : learns M fresh ok src price.
  Hypothesis Hmono : forall a b, (a <= b)%nat -> price a <= price b.
  Hypothesis Hprice : forall n, 0 <= price n.
  Hypothesis Hsrc0 : forall r e, src r -> 0 <= r e.
  Variables (binary : bool) (K : list Z) (D : nat).
  Hypothesis HK : NoDup K.
  Hypothesis H0 : In 0%Z K.
  Hypothesis HB : binary = true -> incl K [0; 1]%Z.
  Hypothesis HD : (0 < D)%nat.
  Variable m : nat.
  Let PM := PTW_model M m fresh.
  Let base := ptw_init m fresh.
  Let HS : steps (by_update PM) A okh (fun w => w = 1) (ptw_inv M A okh fresh m) := ptw_steps M A okh Inv HL fresh Hfresh m.

  Lemma ctw_ptw_learner q cps t evs : is_tree K D t -> (forall v i, src (q v i)) ->
    (forall v, changes_only (q v) (cps v)) -> (forall v, Forall (fun c => c mod 2 ^ m = 0)%nat (cps v)) ->
    Forall (fun e => ok e /\ incl (ev_hist e) K) evs -> 0 < emitted K D q t [] evs ->
    exists s l, run (CTW_model PM base binary) (ctw_init base (Z.of_nat D)) evs = Ok (s, l) /\
      - l <= - ln (emitted K D q t [] evs)
             + Rsum (map (fun v => let n := length (sel (recent D) v evs) in let d := levels m n in let k := length (cps v) in
                 INR (1 + k * d) * price n + INR (1 + 2 * k * d) * ln 2 + INR (pred d) * ln (3 / 2)) (leaves K [] t))
             + INR (cost D t) * ln 2.
  Proof.
    intros Ht Hq Hch Hcps Hev Hpos.
    assert (Hev2 : Forall (fun e => ok_event A okh (fun w => w = 1) e /\ incl (ev_hist e) K) evs)
      by (eapply Forall_impl; [|exact Hev]; intros e [He Hi]; split; [exact (Hok e He)|exact Hi]).
    assert (Hh : Forall (fun e => incl (ev_hist e) K) evs) by (eapply Forall_impl; [|exact Hev]; intros e [_ Hi]; exact Hi).
    assert (Hq0 : forall v i e, 0 <= q v i e) by (intros v i e; apply Hsrc0, Hq).
    pose proof (ptw_inv_init M A okh fresh m) as Hbase.
    destruct (ctw_total_mixture (by_update PM) base binary A okh _ _ K D HS Hbase HK H0 HB HD evs Hev2) as (s & l & Hr & _).
    exists s, l. split; [exact Hr|].
    pose proof (ctw_total_regret (by_update PM) base binary A okh _ _ K D HS Hbase HK H0 HB HD evs t s l Hev2 Ht Hr) as Hreg.
    pose proof (emitted_leaves K D t HK H0 Ht q evs [] Hh) as Hsrc.
    rewrite Rprod_ones, Rmult_1_l, app_nil_l in Hsrc by reflexivity.
    set (cst := fun v => let n := length (sel (recent D) v evs) in let d := levels m n in let k := length (cps v) in
                 INR (1 + k * d) * price n + INR (1 + 2 * k * d) * ln 2 + INR (pred d) * ln (3 / 2)) in *.
    assert (Hle : emitted K D q t [] evs * exp (- Rsum (map cst (leaves K [] t)))
                  <= tree_prob (by_update PM) base (recent D) K [] t evs).
    { rewrite (tree_prob_leaves K (recent D) (by_update PM) base D evs t [] Ht), Hsrc.
      replace (- Rsum (map cst (leaves K [] t))) with (Rsum (map (fun v => -1 * cst v) (leaves K [] t))) by (rewrite Rsum_scal_l; lra).
      rewrite <- Rprod_exp, <- Rprod_map_mult. apply Rprod_le. intros v _.
      assert (Hn : 0 <= source_prob (q v) 0 (sel (recent D) v evs)) by (apply source_nonneg, Hq0).
      assert (Hs : Forall ok (sel (recent D) v evs)) by (apply sel_forall; eapply Forall_impl; [|exact Hev]; intros e [He _]; exact He).
      split; [apply Rmult_le_pos; [exact Hn|left; apply exp_pos]|].
      unfold node_prob. rewrite by_update_seq. unfold cst. set (es := sel (recent D) v evs) in *.
      destruct (Rle_lt_or_eq_dec _ _ Hn) as [Hp|<-].
      - destruct (ptw_tracks M A okh _ Inv (law_step _ _ _ _ _ HL) fresh Hfresh src price ok Hok Hlearn Hmono Hprice (q v) (Hq0 v) (Hq v)
          (cps v) (Hch v) m (Hcps v) es Hs Hp) as (s1 & l1 & Hr1 & Hl1).
        change (run PM base es = Ok (s1, l1)) in Hr1.
        rewrite (seq_prob_run _ _ _ _ _ Hr1). rewrite <- (exp_ln _ Hp) at 1. rewrite <- exp_plus.
        apply KTRedundancy.exp_le_mono. cbv zeta in Hl1 |- *. lra.
      - rewrite Rmult_0_l. left. rewrite <- by_update_seq.
        apply (steps_seq_prob_pos _ _ _ _ _ HS); [exact Hbase|]. eapply Forall_impl; [|exact Hs]. exact Hok. }
    apply KTRedundancy.ln_le in Hle; [|apply Rmult_lt_0_compat; [exact Hpos|apply exp_pos]].
    rewrite ln_mult, ln_exp in Hle by (auto using exp_pos). lra.
  Qed.

  (** The updates are a probability measure. *)
  Lemma ctw_ptw_measure evs h : okh h -> Forall (fun e => ok e /\ incl (ev_hist e) K) evs -> incl h K ->
    exists s l, run (CTW_model PM base binary) (ctw_init base (Z.of_nat D)) evs = Ok (s, l) /\
      Rsum (map (fun a => upd_prob (ctw_update PM base binary) s a h 1) A) = 1.
  Proof.
    intros Hoh Hev Hh. pose proof (ptw_lawful M A okh Inv HL fresh Hfresh m) as HPL. pose proof (ptw_inv_init M A okh fresh m) as Hbase.
    pose proof (ctw_lawful (by_update PM) base binary A okh _ _ K D HS Hbase HK H0 HB HD HPL eq_refl) as HC.
    assert (Hev2 : Forall (ok_event A (okhK okh K) (fun w => w = 1)) evs).
    { eapply Forall_impl; [|exact Hev]. intros e [He Hi]. destruct (Hok e He) as (G1 & G2 & G3). repeat split; assumption. }
    destruct (steps_run _ _ _ _ _ (law_step _ _ _ _ _ HC) _ evs (ctw_inv_init _ _ _ _ _ _ _) Hev2) as (s & l & Hr & Hs).
    exists s, l. split; [exact Hr|]. etransitivity; [|exact (law_norm _ _ _ _ _ HC s h Hs (conj Hoh Hh))].
    apply Rsum_map_ext. intros a Ha. unfold pred_prob, upd_prob.
    destruct (law_step _ _ _ _ _ HC s a h 1 Hs Ha (conj Hoh Hh) eq_refl) as (s' & x & Hu & Hp & _).
    assert (Hu' : ctw_update PM base binary s a h 1 = Ok (s', x)) by exact Hu. rewrite Hu', Hp. reflexivity.
  Qed.
End ctw_ptw.

Section kt.
  Variable A : list Z.
  Hypothesis HA : NoDup A.
  Let k := length A.
  Hypothesis Hk : (2 <= k)%nat.
  Let Hne : A <> [] := A_ne A Hk.

  Lemma kt_lawful_one : lawful KT_model A any_hist (fun w => w = 1) (kt_inv A).
  Proof.
    destruct (kt_lawful A) as [H1 H2]. split; [|exact H2]. intros s a h w Hs Ha Hh ->. apply H1; try assumption. unfold nonneg. lra.
  Qed.
  Lemma symbol_one e : symbol_of A e -> ok_event A any_hist (fun w => w = 1) e.
  Proof. intros [H1 H2]. split; [exact H1|]. split; [exact I|exact H2]. Qed.

  Lemma ctw_ptw_kt binary K D m : NoDup K -> In 0%Z K -> (binary = true -> incl K [0; 1]%Z) -> (0 < D)%nat ->
    forall q cps t evs, is_tree K D t -> (forall v i, memoryless A (q v i)) ->
    (forall v, changes_only (q v) (cps v)) -> (forall v, Forall (fun c => c mod 2 ^ m = 0)%nat (cps v)) ->
    Forall (fun e => symbol_of A e /\ incl (ev_hist e) K) evs -> 0 < emitted K D q t [] evs ->
    let base := ptw_init m (kt_init A) in
    exists s l, run (CTW_model (PTW_model KT_model m (kt_init A)) base binary) (ctw_init base (Z.of_nat D)) evs = Ok (s, l) /\
      - l <= - ln (emitted K D q t [] evs)
             + Rsum (map (fun v => let n := length (sel (recent D) v evs) in let d := levels m n in let c := length (cps v) in
                 INR (1 + c * d) * learn_any (length A) n + INR (1 + 2 * c * d) * ln 2 + INR (pred d) * ln (3 / 2)) (leaves K [] t))
             + INR (cost D t) * ln 2.
  Proof.
    intros HK H0 HB HD.
    exact (ctw_ptw_learner KT_model A any_hist (kt_inv A) kt_lawful_one (kt_init A) (kt_inv_init A HA Hne)
      (memoryless A) (learn_any k) (symbol_of A) symbol_one (kt_learns A HA Hk) (learn_any_mono A Hk) (learn_any_nonneg A Hk)
      (memoryless_nonneg A) binary K D HK H0 HB HD m).
  Qed.

  Lemma ctw_ptw_kt_measure binary K D m : NoDup K -> In 0%Z K -> (binary = true -> incl K [0; 1]%Z) -> (0 < D)%nat ->
    forall evs h, Forall (fun e => symbol_of A e /\ incl (ev_hist e) K) evs -> incl h K ->
    let PM := PTW_model KT_model m (kt_init A) in let base := ptw_init m (kt_init A) in
    exists s l, run (CTW_model PM base binary) (ctw_init base (Z.of_nat D)) evs = Ok (s, l) /\
      Rsum (map (fun a => upd_prob (ctw_update PM base binary) s a h 1) A) = 1.
  Proof.
    intros HK H0 HB HD evs h Hev Hh.
    exact (ctw_ptw_measure KT_model A any_hist (kt_inv A) kt_lawful_one (kt_init A) (kt_inv_init A HA Hne)
      (symbol_of A) symbol_one binary K D HK H0 HB HD m evs h I Hev Hh).
  Qed.
End kt.
