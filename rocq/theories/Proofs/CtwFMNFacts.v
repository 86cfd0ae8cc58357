(** ctw.py's FMN: the PTW inside, the models offered. *)
From Coq Require Import Lra Lia Permutation.
From Verif Require Import Model.CtwFMN Spec.CtwFMNSpec Spec.PTWSpec Proofs.RealFacts Proofs.PyFacts Proofs.ProbFacts.
From Verif Require Import Proofs.AveragerFacts Proofs.PTWFacts Proofs.PTWTop Proofs.PTWMixture Proofs.PTWNorm.
From Verif Require Import Proofs.FMNFacts Proofs.FMNProps Proofs.CtwPTWFacts Proofs.CtwPTWVar Proofs.CtwAveragerFacts Proofs.CtwAveragerTop.
Open Scope R_scope.
Notation bare := (fun h : list Z => h = []).

(** Feeding a ctw.PTW whose factory returns [mk t] at time [t]. *)
Section feed.
  Context {S : Type} (Q : probseq S).
  Notation M := (q_model Q).
  Hypothesis Hlaw : forall s a h w s' l, m_update M s a h w = Ok (s', l) -> q_lp Q s' = q_lp Q s + l.
  Variable mk : nat -> S.
  Hypothesis Hmk0 : forall t, q_lp Q (mk t) = 0.
  Context (A : list Z) (okw : R -> Prop) (Inv : S -> Prop).
  Hypothesis HS : steps M A bare okw Inv.
  Hypothesis Hinv : forall t, Inv (mk t).
  Notation ok := (ok_event A bare okw).

  Lemma v_feed H evs : Forall ok evs -> (length evs <= 2 ^ H)%nat ->
    exists s, feed (fun t => qptw_update Q (mk t)) 0 (qptw_init (mk 0%nat) H) evs = Ok (s, qp_lp s) /\
      vrep Q mk s evs /\ qp_height s = H.
  Proof.
    induction evs as [|e evs IH] using rev_ind; intros Hev Hl.
    - exists (qptw_init (mk 0%nat) H). split; [reflexivity|]. split; [apply (vrep_init Q Hlaw mk Hmk0)|reflexivity].
    - apply Forall_app in Hev as (Hev & He). inversion He as [|x y He1 _]; subst.
      rewrite app_length in Hl; cbn [length] in Hl.
      destruct (IH Hev) as (s & Hf & Hr & Hh); [lia|].
      destruct (v_step Q Hlaw mk Hmk0 A okw Inv HS Hinv s evs e Hr Hev He1) as (s' & Hu & Hr' & Hh'); [rewrite Hh; lia|].
      exists s'. split; [|split; [exact Hr'|congruence]].
      replace (qp_lp s') with (qp_lp s + (qp_lp s' - qp_lp s)) by lra.
      eapply feed_snoc; [exact Hf|]. rewrite Nat.add_0_l. exact Hu.
  Qed.
End feed.

Section fmn.
  Context {S T : Type} (Q : probseq S) (reset : S -> S) (C : store_class (S := S) T) (TI : T -> Prop).
  Variable order : nat -> list S -> list S.
  Hypothesis Hord : forall t l, Permutation (order t l) l.
  Context (A : list Z) (okw : R -> Prop) (Inv : S -> Prop).
  Hypothesis HR : running_total Q reset.
  Hypothesis HS : steps (q_model Q) A bare okw Inv.
  Hypothesis Hri : forall s, Inv s -> Inv (reset s).
  Hypothesis HC : store_law C TI.
  Notation ok := (ok_event A bare okw).
  Notation QA := (QAVG_class Q).
  Notation AM := (q_model QA).
  Notation FM := (QFMN_model Q reset C order).
  Notation ainv := (qavg_inv Q Inv).
  Notation base := (qfmn_base reset C order).

  Lemma order_inv t l : Forall Inv l -> Forall Inv (order t l).
  Proof. intros H. apply (Permutation_Forall (Permutation_sym (Hord t l)) H). Qed.
  Lemma order_ne t l : l <> [] -> order t l <> [].
  Proof. intros H E. pose proof (Hord t l) as HP. rewrite E in HP. apply Permutation_nil in HP. congruence. Qed.

  Lemma base_ok t models : TI models -> Forall Inv (st_iter C models) ->
    exists a, base t models = Ok a /\ ainv a /\ qa_lp a = 0.
  Proof.
    intros HT HI. unfold qfmn_base.
    destruct (qavg_init_ok Q reset (rt_zero _ _ HR) Inv Hri (order t (st_iter C models))) as (a & Ha & Hi & H0 & _).
    - apply order_ne, (sl_nonempty _ _ HC models HT).
    - apply order_inv, HI.
    - exists a. auto.
  Qed.

  Record qfollows (H : nat) (s0 : qfmn) (evs : list event) (s : qfmn) (l : R) (mk : nat -> qavg S) (fresh : S) (xs : list S) : Prop := {
    fq_run : run FM s0 evs = Ok (s, l);
    fq_ti : TI (qf_models s);
    fq_inv : Forall Inv (st_iter C (qf_models s));
    fq_mk_inv : forall t, ainv (mk t);
    fq_mk0 : forall t, qa_lp (mk t) = 0;
    fq_mk : forall t, (t <= length evs)%nat -> exists st lt, run FM s0 (firstn t evs) = Ok (st, lt) /\
              TI (qf_models st) /\ Forall Inv (st_iter C (qf_models st)) /\
              base t (qf_models st) = Ok (mk t);
    fq_feed : feed (fun t => qptw_update QA (mk t)) 0 (qptw_init (mk 0%nat) H) evs = Ok (qf_ptw s, l);
    fq_adds : st_adds C (st_empty C) xs = Ok (qf_models s);
    fq_len : length xs = (1 + length evs)%nat;
    fq_first : hd_error xs = Some fresh;
    fq_reused : forall i x, nth_error xs (Datatypes.S i) = Some x ->
                  qreused Q reset C order s0 evs (Datatypes.S i) x }.

  Lemma qretained_snoc s0 evs e b : (b <= length evs)%nat ->
    qretained Q reset C order s0 (evs ++ [e]) b = qretained Q reset C order s0 evs b.
  Proof. intros Hb. unfold qretained. rewrite firstn_app. replace (b - length evs)%nat with 0%nat by lia. cbn [firstn]. rewrite app_nil_r. reflexivity. Qed.

  Lemma qreused_snoc s0 evs e t x : (t <= length evs)%nat -> qreused Q reset C order s0 evs t x ->
    qreused Q reset C order s0 (evs ++ [e]) t x.
  Proof.
    intros Ht (b & m0 & Hb & Hin & Hr). exists b, m0. split; [exact Hb|].
    rewrite qretained_snoc by lia. rewrite (firstn_snoc_le evs e t) by exact Ht. split; assumption.
  Qed.

  Lemma qfmn_follows H fresh evs : Inv fresh -> Forall ok evs -> (length evs <= 2 ^ H)%nat ->
    exists s0, qfmn_init reset C order H fresh = Ok s0 /\ exists s l mk xs, qfollows H s0 evs s l mk fresh xs.
  Proof.
    intros Hf. destruct (sl_first _ _ HC fresh) as (t0 & Ht0 & HT0 & Hit0).
    destruct (base_ok 0 t0 HT0) as (a0 & Ha0 & Hi0 & Hz0). { rewrite Hit0. constructor; [exact Hf|constructor]. }
    intros Hev Hlen0. exists (QFMN t0 (qptw_init a0 H)). split; [unfold qfmn_init; rewrite Ht0; cbn [bind]; rewrite Ha0; reflexivity|].
    set (s0 := QFMN t0 (qptw_init a0 H)). revert Hlen0.
    induction evs as [|e evs IH] using rev_ind; intros Hlen0.
    - exists s0, 0, (fun _ => a0), [fresh]. split.
      + reflexivity.
      + exact HT0.
      + cbn [qf_models s0]. rewrite Hit0. constructor; [exact Hf|constructor].
      + intros _. exact Hi0.
      + intros _. exact Hz0.
      + intros t Ht. cbn in Ht. assert (t = 0)%nat as -> by lia. exists s0, 0. split; [reflexivity|]. split; [exact HT0|].
        split; [cbn [qf_models s0]; rewrite Hit0; constructor; [exact Hf|constructor]|exact Ha0].
      + reflexivity.
      + cbn [st_adds]. rewrite Ht0. reflexivity.
      + reflexivity.
      + reflexivity.
      + intros [|i] x Hx; discriminate.
    - apply Forall_app in Hev as (Hev & He). inversion He as [|x0 y0 He1 _]; subst x0 y0.
      assert (Hlen : length (evs ++ [e]) = Datatypes.S (length evs)) by (rewrite app_length; cbn [length]; lia).
      rewrite Hlen in Hlen0. destruct (IH Hev) as (s & l & mk & xs & F); [lia|]. clear IH. set (n := length evs) in *.
      destruct F as [Frun Fti Finv Fmki Fmk0 Fmk Ffeed Fadds Flen Ffirst Freu].
      pose proof (qavg_steps Q (rt_adds _ _ HR) A okw Inv HS bare) as HAS.
      destruct (v_feed QA (qavg_law Q) mk Fmk0 A okw ainv HAS Fmki H evs Hev) as (sp & Hfeed & Hrep & Hh); [fold n; lia|].
      rewrite Ffeed in Hfeed. injection Hfeed as <- El.
      destruct (v_step QA (qavg_law Q) mk Fmk0 A okw ainv HAS Fmki (qf_ptw s) evs e Hrep Hev He1) as (p' & Hu & Hrep' & Hh'); [rewrite Hh; fold n; lia|].
      set (l1 := qp_lp p' - qp_lp (qf_ptw s)) in *.
      destruct (Fmk n (Nat.le_refl _)) as (st & lt & Hst & _ & _ & Hfac).
      unfold n in Hst. rewrite firstn_all, Frun in Hst. injection Hst as <- <-. fold n in Hu.
      assert (Hmap : exists b xm, qptw_map QA p' = Ok b /\ qavg_map Q b = Ok xm /\ Inv xm /\
                       qreused Q reset C order s0 (evs ++ [e]) (Datatypes.S n) xm).
      { destruct (v_map QA (qavg_law Q) mk Fmk0 A ainv Fmki p' _ Hrep') as (b & k & l2 & Hb & Hk & Hr). rewrite Hlen in Hk.
        assert (Hkn : (k <= n)%nat) by (fold n in Hk; lia).
        destruct (Fmk k Hkn) as (sk & lk & Hsk & HTk & HIk & Hfk). unfold qfmn_base in Hfk.
        set (ms := order k (st_iter C (qf_models sk))) in *.
        assert (Hseg : Forall ok (skipn k (evs ++ [e]))) by (apply Forall_skipn, Forall_app; split; assumption).
        destruct (qavg_mixture0 Q reset (rt_adds _ _ HR) (rt_zero _ _ HR) A okw Inv HS Hri ms _
                    (order_ne _ _ (sl_nonempty _ _ HC _ HTk)) (order_inv _ _ HIk) Hseg)
          as (b0 & b1 & lb & Hb0 & Hb1 & Hbi & _ & HF).
        rewrite Hfk in Hb0. injection Hb0 as <-. rewrite Hr in Hb1. injection Hb1 as <- <-.
        exists b. unfold qavg_map. destruct (qa_models b) as [|y ys] eqn:Em.
        { exfalso. inversion HF as [Hnil|]. symmetry in Hnil. revert Hnil. apply order_ne, (sl_nonempty _ _ HC _ HTk). }
        exists (qmax_by Q y ys). split; [exact Hb|]. split; [reflexivity|].
        pose proof (qmax_in Q ys y) as Hin. set (xm := qmax_by Q y ys) in *.
        assert (Hex : exists m0, In m0 ms /\ fed Q reset (skipn k (evs ++ [e])) m0 xm).
        { revert HF Hin. clear. generalize (y :: ys) as L. intros L HF Hin. induction HF as [|m0 m1 ms' d' H1 H2 IHF]; [destruct Hin|].
          destruct Hin as [Ey|Hin]; [subst m1|].
          - exists m0. split; [left; reflexivity|exact H1].
          - destruct (IHF Hin) as (m2 & Hm2 & Hx). exists m2. split; [right; exact Hm2|exact Hx]. }
        destruct Hex as (m0 & Hm0 & Hfed).
        assert (Hm0' : In m0 (st_iter C (qf_models sk))) by (apply (Permutation_in _ (Hord k _)), Hm0).
        split.
        - destruct Hfed as (lx & Hx & _). rewrite Forall_forall in HIk.
          exact (run_inv _ A bare okw Inv HS (fun _ => reset m0) (fun _ => Hri _ (HIk _ Hm0')) 0%nat _ _ _ Hseg Hx).
        - exists k, m0. split; [lia|]. rewrite qretained_snoc by exact Hkn. split.
          + unfold qretained. rewrite Hsk. exact Hm0'.
          + rewrite <- Hlen, firstn_all. exact Hfed. }
      destruct Hmap as (b & xm & Hpm & Ham & HIm & Hre).
      destruct (sl_add _ _ HC _ xm Fti) as (models' & Hadd & HT' & Hincl).
      assert (HI' : Forall Inv (st_iter C models')).
      { rewrite Forall_forall in *. intros x Hx. apply Hincl in Hx as [<-|Hx]; [exact HIm|apply Finv, Hx]. }
      set (s' := QFMN models' p').
      assert (Hqt : qf_t s = n) by (unfold qf_t; apply (vrep_t QA mk _ _ Hrep)).
      assert (Hupd : m_update FM s (ev_sym e) (ev_hist e) (ev_wt e) = Ok (s', l1)).
      { cbn [QFMN_model m_update]. unfold qfmn_update. rewrite Hqt, Hfac. cbn [bind].
        assert (Hh0 : ev_hist e = []) by apply He1. rewrite Hh0 in Hu. rewrite Hu. cbn [bind].
        rewrite Hpm. cbn [bind]. rewrite Ham. cbn [bind]. rewrite Hadd. reflexivity. }
      destruct (base_ok (Datatypes.S n) models' HT' HI') as (a' & Ha' & Hai' & Haz').
      assert (Hrun' : run FM s0 (evs ++ [e]) = Ok (s', l + l1)) by (eapply run_snoc; [exact Frun|exact Hupd]).
      set (mk' := fun t => if (t <=? n)%nat then mk t else a').
      assert (Hmk' : forall t, (t <= n)%nat -> mk' t = mk t).
      { intros t Ht. unfold mk'. apply Nat.leb_le in Ht. rewrite Ht. reflexivity. }
      exists s', (l + l1), mk', (xs ++ [xm]). split; try assumption.
      + intros t. unfold mk'. destruct (t <=? n)%nat; [apply Fmki|exact Hai'].
      + intros t. unfold mk'. destruct (t <=? n)%nat; [apply Fmk0|exact Haz'].
      + intros t Ht. rewrite Hlen in Ht. destruct (Nat.le_gt_cases t n) as [Htn|Htn].
        * rewrite (Hmk' t Htn), (firstn_snoc_le evs e t Htn). apply (Fmk t Htn).
        * assert (t = Datatypes.S n) as -> by lia. exists s', (l + l1). rewrite <- Hlen, firstn_all.
          split; [exact Hrun'|]. split; [exact HT'|]. split; [exact HI'|]. rewrite Hlen. unfold mk'. fold n.
          replace (Datatypes.S n <=? n)%nat with false by (symmetry; apply Nat.leb_gt; lia). exact Ha'.
      + eapply feed_snoc with (s1 := qf_ptw s).
        * rewrite (Hmk' 0%nat) by lia. rewrite <- Ffeed. apply feed_ext.
          intros k Hk. rewrite (Hmk' k) by (unfold n; lia). reflexivity.
        * rewrite Nat.add_0_l. fold n. rewrite (Hmk' n) by lia. exact Hu.
      + rewrite st_adds_app, Fadds. cbn [bind st_adds]. rewrite Hadd. reflexivity.
      + rewrite app_length, Flen, Hlen. cbn [length]. fold n. lia.
      + destruct xs; [discriminate|exact Ffirst].
      + intros i x Hx. destruct (Nat.lt_ge_cases (Datatypes.S i) (length xs)) as [Hi|Hi].
        * rewrite nth_error_app1 in Hx by exact Hi. apply qreused_snoc; [fold n; lia|]. apply Freu, Hx.
        * rewrite nth_error_app2 in Hx by exact Hi.
          destruct (Datatypes.S i - length xs)%nat as [|j] eqn:Ej; [|destruct j; discriminate].
          cbn in Hx. injection Hx as <-. replace (Datatypes.S i) with (Datatypes.S n) by lia. exact Hre.
  Qed.
End fmn.
