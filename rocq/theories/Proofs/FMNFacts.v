(** FMN: the PTW inside, the models offered, what it competes with. *)
From Coq Require Import Lra Lia.
From Verif Require Import Model.FMN Spec.FMNSpec Proofs.RealFacts Proofs.PyFacts Proofs.ProbFacts.
From Verif Require Import Proofs.AveragerFacts Proofs.PTWFacts Proofs.PTWTop Proofs.PTWMixture Proofs.PTWNorm Proofs.PTWPredict Proofs.PTWProps.
From Verif Require Import Proofs.StoreFacts Proofs.UniformFacts.
Open Scope R_scope.

(** ** Stores *)
Lemma st_adds_app {S T} (C : store_class (S := S) T) xs : forall t ys,
  st_adds C t (xs ++ ys) = do t' <- st_adds C t xs; st_adds C t' ys.
Proof.
  induction xs as [|x xs IH]; intros t ys; cbn [app st_adds bind]; [reflexivity|].
  destruct (st_lazy_add C t x) as [t'|e]; cbn [bind]; [apply IH|reflexivity].
Qed.

Lemma ls_adds {S} (xs : list S) : forall t, st_adds (LogStore_class S) t xs = Ok (fold_left ls_add xs t).
Proof. induction xs as [|x xs IH]; intros t; cbn [st_adds fold_left LogStore_class st_lazy_add bind]; [reflexivity|apply IH]. Qed.

Lemma us_adds_eq {S} (xs : list S) : forall t, st_adds (LogStoreUniform_class S) t xs = us_adds t xs.
Proof.
  induction xs as [|x xs IH]; intros t; cbn [st_adds us_adds LogStoreUniform_class st_lazy_add bind]; [reflexivity|].
  destruct (us_add t x) as [t'|e]; cbn [bind]; [apply IH|reflexivity].
Qed.

Lemma ls_add_incl {S} (s : logstore S) : forall x, incl (ls_iter (ls_add s x)) (x :: ls_iter s).
Proof.
  induction s as [|[y b] s IH]; intros x; [apply incl_refl|]. destruct b; cbn [ls_add].
  - unfold ls_iter in *. cbn [map fst]. intros z [<-|Hz]; [left; reflexivity|]. right. apply IH in Hz. exact Hz.
  - unfold ls_iter. cbn [map fst]. intros z [<-|Hz]; [left; reflexivity|]. right. right. exact Hz.
Qed.

Lemma logstore_law S : store_law (LogStore_class S) (fun s => s <> []).
Proof.
  split; cbn [LogStore_class st_lazy_add st_empty st_iter].
  - intros x. exists [(x, true)]. split; [reflexivity|]. split; [discriminate|reflexivity].
  - intros t x Ht. exists (ls_add t x). split; [reflexivity|]. split; [destruct t as [|[y []] t]; discriminate|].
    apply ls_add_incl.
  - intros t Ht. destruct t as [|[y b] t]; [congruence|discriminate].
Qed.

Lemma list_del_incl {X} (l : list X) : forall k, incl (list_del l k) l.
Proof.
  induction l as [|x l IH]; intros [|k]; cbn [list_del]; try apply incl_refl.
  - apply incl_tl, incl_refl.
  - intros y [<-|Hy]; [left; reflexivity|right; exact (IH k y Hy)].
Qed.

Lemma us_add_incl {S} (s s' : ustore S) x : us_add s x = Ok s' -> incl (us_iter s') (x :: us_iter s).
Proof.
  unfold us_add, us_lazy_add. destruct (negb (us_skip s =? 0)%Z); cbn [bind].
  - intros H; injection H as <-. apply incl_tl, incl_refl.
  - intros H. destruct (if (0 <? us_remove s)%Z then py_del (us_items s ++ [x]) (us_remove s) else Ok (us_items s ++ [x])) as [l|e] eqn:E; cbn [bind] in H; [|discriminate].
    assert (Hl : incl l (us_items s ++ [x])).
    { destruct (0 <? us_remove s)%Z.
      - unfold py_del in E. destruct (py_index _ _) as [k|e]; cbn [bind] in E; [|discriminate]. injection E as <-. apply list_del_incl.
      - injection E as <-. apply incl_refl. }
    destruct (us_remove s + 1 >=? Z.of_nat (length l))%Z; cbn [bind] in H; injection H as <-;
      unfold us_iter; cbn [us_items]; intros z Hz; apply in_rev in Hz; apply Hl in Hz; apply in_app_or in Hz as [Hz|[<-|[]]];
      [right; rewrite <- in_rev; exact Hz|left; reflexivity|right; rewrite <- in_rev; exact Hz|left; reflexivity].
Qed.

Lemma uniform_law S : store_law (LogStoreUniform_class S) (fun s => exists xs, xs <> [] /\ us_adds us_init xs = Ok s).
Proof.
  split; cbn [LogStoreUniform_class st_lazy_add st_empty st_iter].
  - intros x. eexists. split; [reflexivity|]. split; [|reflexivity]. exists [x]. split; [discriminate|reflexivity].
  - intros t x (xs & Hne & Hxs).
    destruct (uniform_items (xs ++ [x])) as (s & _ & _ & _ & Hs & _); [destruct xs; discriminate|].
    pose proof Hs as Hs'. rewrite us_adds_app, Hxs in Hs. cbn [bind us_adds] in Hs.
    destruct (us_add t x) as [t'|e] eqn:E; cbn [bind] in Hs; [|discriminate]. injection Hs as <-.
    exists t'. split; [reflexivity|]. split; [exists (xs ++ [x]); split; [destruct xs; discriminate|exact Hs']|].
    eapply us_add_incl; exact E.
  - intros t (xs & Hne & Hxs). destruct (uniform_items xs Hne) as (s & idx & _ & _ & Hs & Hi & _ & Hh & _).
    rewrite Hxs in Hs. injection Hs as <-. intros E. unfold us_iter in E.
    assert (E2 : us_items t = []) by (rewrite <- (rev_involutive (us_items t)), E; reflexivity).
    rewrite E2 in Hi. destruct idx; discriminate.
Qed.

(** ** Numbering *)
Lemma number_from_keys {X} (l : list X) : forall i k x, In (k, x) (number_from i l) -> (i <= k)%Z /\ In x l.
Proof.
  induction l as [|y l IH]; intros i k x H; [destruct H|]. destruct H as [E|H].
  - injection E as <- <-. split; [lia|left; reflexivity].
  - apply IH in H as (H1 & H2). split; [lia|right; exact H2].
Qed.

Lemma number_from_nodup {X} (l : list X) : forall i, NoDup (map fst (number_from i l)).
Proof.
  induction l as [|y l IH]; intros i; cbn [number_from map]; [constructor|]. constructor; [|apply IH].
  intros H. apply in_map_iff in H as ((k & x) & E & H). cbn in E. subst. apply number_from_keys in H. lia.
Qed.

Lemma number_from_length {X} (l : list X) : forall i, length (number_from i l) = length l.
Proof. induction l as [|y l IH]; intros i; cbn; auto. Qed.

Lemma number_from_in {X} (l : list X) : forall i x, In x l -> exists k, In (k, x) (number_from i l).
Proof.
  induction l as [|y l IH]; intros i x H; [destruct H|]. destruct H as [->|H].
  - exists i. left. reflexivity.
  - destruct (IH (i + 1)%Z x H) as (k & Hk). exists k. right. exact Hk.
Qed.

(** ** Feeding with factories that agree on the times used *)
Lemma feed_ext {T} (u1 u2 : nat -> T -> Z -> list Z -> R -> result (T * R)) evs : forall t s,
  (forall k, (t <= k < t + length evs)%nat -> u1 k = u2 k) -> feed u1 t s evs = feed u2 t s evs.
Proof.
  induction evs as [|e evs IH]; intros t s H; cbn [feed]; [reflexivity|]. cbn [length] in H.
  rewrite (H t) by lia. destruct (u2 t s _ _ _) as [[s1 l]|]; cbn [bind]; [|reflexivity].
  rewrite (IH (Datatypes.S t) s1); [reflexivity|]. intros k Hk. apply H. lia.
Qed.

Lemma max_score_in {S} (l : list (R * S)) : forall b, In (max_score b l) (b :: l).
Proof.
  induction l as [|x l IH]; intros b; cbn [max_score]; [left; reflexivity|].
  destruct (Rlt_dec (fst b) (fst x)); destruct (IH (if Rlt_dec (fst b) (fst x) then x else b)) as [H|H].
  all: destruct (Rlt_dec (fst b) (fst x)); try contradiction; cbn [In] in *; tauto.
Qed.

(** The bases on the right spine are the fresh models run over the events since. *)
Lemma spine_bases {S} (M : model S) mk m : forall n d s evs left sc b,
  prep M mk m d n s evs -> In (sc, b) (pnode_scores n left) ->
  exists k l, (k = 0 \/ k < length evs)%nat /\ run M (mk (s + k)%nat) (skipn k evs) = Ok (b, l).
Proof.
  intros n. induction n as [base height count blp llp lp rch IH] using pnode_rec_ind.
  intros d s evs left sc b Hp Hin. cbn [prep] in Hp. destruct Hp as (H1 & _ & Hc & _ & _ & Hr).
  cbn [pnode_scores] in Hin. destruct Hin as [E|Hin].
  - injection E as _ <-. exists 0%nat, blp. split; [left; reflexivity|]. rewrite Nat.add_0_r. exact H1.
  - destruct rch as [r|]; [|destruct Hin]. destruct Hr as (d' & dr & _ & _ & Hlt & _ & Hpr).
    destruct (IH _ _ _ _ _ _ Hpr Hin) as (k & l & Hk & Hrun). rewrite skipn_length in Hk.
    exists (2 ^ (m + d') + k)%nat, l. split; [subst count; lia|]. rewrite skipn_add in Hrun. rewrite Nat.add_assoc. exact Hrun.
Qed.

Lemma ptw_map_base {S} (M : model S) mk m s evs : ptw_rep M mk m s evs ->
  exists k l, (k = 0 \/ k < length evs)%nat /\ run M (mk k) (skipn k evs) = Ok (ptw_map s, l).
Proof.
  intros (Hp & _). unfold ptw_map. destruct (pt_tree s) as [base height count blp llp lp rch] eqn:E.
  cbn [pnode_scores]. set (sc0 := (blp + 0, base)). set (L := match rch with Some r => pnode_scores r (0 + (llp + log_0_5)) | None => [] end).
  pose proof (max_score_in L sc0) as Hin. destruct (max_score sc0 L) as [sc b]. cbn [snd].
  rewrite <- E in Hp.
  destruct (spine_bases M mk m (pt_tree s) _ 0%nat evs 0 sc b Hp) as (k & l & Hk & Hr).
  { rewrite E. exact Hin. }
  exists k, l. split; [exact Hk|exact Hr].
Qed.

Section fmn.
  Context {S T : Type} (M : model S) (C : store_class (S := S) T) (TI : T -> Prop).
  Context (A : list Z) (okh : list Z -> Prop) (okw : R -> Prop) (Inv : S -> Prop).
  Hypothesis HS : steps M A okh okw Inv.
  Hypothesis HC : store_law C TI.
  Variable m : nat.
  Notation ok := (ok_event A okh okw).
  Notation AM := (AVG_model M).
  Notation FM := (FMN_model M C m).
  Notation ainv := (avg_inv Inv).

  Lemma factory_ok models : TI models -> Forall Inv (st_iter C models) ->
    exists a, fmn_factory C models = Ok a /\ ainv a.
  Proof.
    intros HT HI. unfold fmn_factory.
    destruct (avg_init_ok M Inv (number_from 0 (st_iter C models))) as (a & Ha & Hi & _).
    - pose proof (sl_nonempty _ _ HC models HT) as Hne. destruct (st_iter C models); [congruence|discriminate].
    - apply number_from_nodup.
    - intros k x Hx. apply number_from_keys in Hx as (_ & Hx). rewrite Forall_forall in HI. apply HI, Hx.
    - exists a. split; assumption.
  Qed.

  (** What an FMN run looks like. *)
  Record follows (s0 : fmn) (evs : list event) (s : fmn) (l : R) (mk : nat -> avg S) (fresh : S) (xs : list S) : Prop := {
    fo_run : run FM s0 evs = Ok (s, l);
    fo_ti : TI (fm_models s);
    fo_inv : Forall Inv (st_iter C (fm_models s));
    fo_t : fm_t s = length evs;
    fo_mk_inv : forall t, ainv (mk t);
    fo_mk : forall t, (t <= length evs)%nat -> exists st lt, run FM s0 (firstn t evs) = Ok (st, lt) /\
              TI (fm_models st) /\ Forall Inv (st_iter C (fm_models st)) /\
              fmn_factory C (fm_models st) = Ok (mk t);
    fo_feed : feed (fun t => ptw_update AM m (mk t)) 0 (ptw_init m (mk 0%nat)) evs = Ok (fm_ptw s, l);
    fo_adds : st_adds C (st_empty C) xs = Ok (fm_models s);
    fo_len : length xs = (1 + length evs / 2 ^ m)%nat;
    fo_first : hd_error xs = Some fresh;
    fo_reused : forall i x, nth_error xs (Datatypes.S i) = Some x ->
                  reused M C m s0 evs (Datatypes.S i * 2 ^ m) x }.

  Lemma retained_snoc s0 evs e b : (b <= length evs)%nat ->
    retained M C m s0 (evs ++ [e]) b = retained M C m s0 evs b.
  Proof. intros H. unfold retained. rewrite firstn_app. replace (b - length evs)%nat with 0%nat by lia. cbn [firstn]. rewrite app_nil_r. reflexivity. Qed.

  Lemma firstn_snoc_le {X} (l : list X) e t : (t <= length l)%nat -> firstn t (l ++ [e]) = firstn t l.
  Proof. intros H. rewrite firstn_app. replace (t - length l)%nat with 0%nat by lia. cbn [firstn]. apply app_nil_r. Qed.

  Lemma reused_snoc s0 evs e t x : (t <= length evs)%nat -> reused M C m s0 evs t x -> reused M C m s0 (evs ++ [e]) t x.
  Proof.
    intros Ht (b & m0 & l & Hb & Hin & Hr). exists b, m0, l. split; [exact Hb|].
    rewrite retained_snoc by lia. rewrite firstn_snoc_le by exact Ht. split; assumption.
  Qed.

  Lemma fmn_follows fresh evs : Inv fresh -> Forall ok evs ->
    exists s0, fmn_init C m fresh = Ok s0 /\ exists s l mk xs, follows s0 evs s l mk fresh xs.
  Proof.
    intros Hf. destruct (sl_first _ _ HC fresh) as (t0 & Ht0 & HT0 & Hit0).
    destruct (factory_ok t0 HT0) as (a0 & Ha0 & Hi0). { rewrite Hit0. constructor; [exact Hf|constructor]. }
    intros Hev. exists (FMN t0 (ptw_init m a0) 0). split; [unfold fmn_init; rewrite Ht0; cbn [bind]; rewrite Ha0; reflexivity|].
    set (s0 := FMN t0 (ptw_init m a0) 0).
    assert (Hm : (2 ^ m <> 0)%nat) by (apply Nat.pow_nonzero; lia).
    induction evs as [|e evs IH] using rev_ind.
    - exists s0, 0, (fun _ => a0), [fresh]. split.
      + reflexivity.
      + exact HT0.
      + cbn [fm_models s0]. rewrite Hit0. constructor; [exact Hf|constructor].
      + reflexivity.
      + intros _. exact Hi0.
      + intros t Ht. exists s0, 0. rewrite firstn_nil. split; [reflexivity|]. split; [exact HT0|].
        split; [cbn [fm_models s0]; rewrite Hit0; constructor; [exact Hf|constructor]|exact Ha0].
      + reflexivity.
      + cbn [st_adds]. rewrite Ht0. reflexivity.
      + cbn [length]. rewrite Nat.div_0_l by exact Hm. reflexivity.
      + reflexivity.
      + intros [|i] x H; discriminate.
    - apply Forall_app in Hev as (Hev & He). inversion He as [|x0 y0 He1 _]; subst x0 y0.
      destruct (IH Hev) as (s & l & mk & xs & F). clear IH. set (n := length evs).
      pose proof (avg_steps M A okh okw Inv HS) as HAS.
      destruct (feed_rep AM A okh okw ainv HAS mk (fo_mk_inv _ _ _ _ _ _ _ F) m evs _ _ Hev (fo_feed _ _ _ _ _ _ _ F)) as (Hrep & Hl).
      destruct (ptw_step AM A okh okw ainv HAS mk (fo_mk_inv _ _ _ _ _ _ _ F) m _ evs e Hrep Hev He1) as (p' & Hu & Hrep' & _ & _).
      set (l1 := pt_lp p' - pt_lp (fm_ptw s)) in *.
      destruct (fo_mk _ _ _ _ _ _ _ F n (Nat.le_refl _)) as (st & lt & Hst & _ & _ & Hfac).
      unfold n in Hst. rewrite firstn_all, (fo_run _ _ _ _ _ _ _ F) in Hst. injection Hst as <- <-. fold n in Hu.
      assert (Hlen : length (evs ++ [e]) = Datatypes.S n) by (rewrite app_length; cbn [length]; unfold n; lia).
      assert (Hmap : exists k xm, avg_map (ptw_map p') = Ok (k, xm) /\ Inv xm /\ reused M C m s0 (evs ++ [e]) (Datatypes.S n) xm).
      { destruct (ptw_map_base AM mk m p' _ Hrep') as (k & l2 & Hk & Hr). rewrite Hlen in Hk.
        assert (Hkn : (k <= n)%nat) by lia.
        destruct (fo_mk _ _ _ _ _ _ _ F k Hkn) as (sk & lk & Hsk & HTk & HIk & Hfk). unfold fmn_factory in Hfk.
        set (ms := number_from 0 (st_iter C (fm_models sk))) in *.
        assert (Hms : ms <> []).
        { pose proof (sl_nonempty _ _ HC _ HTk) as Hne. unfold ms. destruct (st_iter C (fm_models sk)); [congruence|discriminate]. }
        assert (HIms : forall i x, In (i, x) ms -> Inv x).
        { intros i x Hx. apply number_from_keys in Hx as (_ & Hx). rewrite Forall_forall in HIk. apply HIk, Hx. }
        assert (Hseg : Forall ok (skipn k (evs ++ [e]))) by (apply Forall_skipn, Forall_app; split; assumption).
        destruct (avg_mixture M A okh okw Inv HS ms _ Hms (number_from_nodup _ _) HIms Hseg)
          as (b0 & b1 & lb & Hb0 & Hb1 & Hbi & (HF & _) & _).
        rewrite Hfk in Hb0. injection Hb0 as <-. rewrite Hr in Hb1. injection Hb1 as <- <-.
        destruct Hbi as (Hbne & HbI & _). unfold avg_map.
        destruct (av_models (ptw_map p')) as [|kv dd] eqn:Em; [congruence|].
        destruct (max_by_spec kv dd) as (Hmax & _). destruct (max_by kv dd) as [kk [xm lpm]].
        exists kk, xm. split; [reflexivity|]. split; [eapply HbI; exact Hmax|].
        assert (Hex : exists km, In km ms /\ exists l3, run M (snd km) (skipn k (evs ++ [e])) = Ok (xm, l3)).
        { revert HF Hmax. clear. generalize (kv :: dd) as L. intros L HF Hmax. induction HF as [|km y ms' d' H1 H2 IHF]; [destruct Hmax|].
          destruct Hmax as [Ey|Hmax]; [subst y|].
          - destruct H1 as (_ & l3 & Hl3 & _). exists km. split; [left; reflexivity|]. exists l3. exact Hl3.
          - destruct (IHF Hmax) as (km' & Hin & Hx). exists km'. split; [right; exact Hin|exact Hx]. }
        destruct Hex as ((i & m0) & Hin & l3 & Hl3). exists k, m0, l3. split; [lia|].
        rewrite retained_snoc by exact Hkn. split.
        - unfold retained. rewrite Hsk. apply number_from_keys in Hin. tauto.
        - rewrite <- Hlen, firstn_all. exact Hl3. }
      destruct Hmap as (kk & xm & Hmap & HIm & Hre).
      (* the new state *)
      assert (Hstep : exists models' xs', m_update FM s (ev_sym e) (ev_hist e) (ev_wt e) = Ok (FMN models' p' (Datatypes.S n), l1) /\
                TI models' /\ Forall Inv (st_iter C models') /\ st_adds C (st_empty C) xs' = Ok models' /\
                length xs' = (1 + Datatypes.S n / 2 ^ m)%nat /\ hd_error xs' = Some fresh /\
                forall i x, nth_error xs' (Datatypes.S i) = Some x -> reused M C m s0 (evs ++ [e]) (Datatypes.S i * 2 ^ m) x).
      { cbn [FMN_model m_update]. unfold fmn_update. rewrite Hfac. cbn [bind]. rewrite Hu. cbn [bind].
        rewrite (fo_t _ _ _ _ _ _ _ F). fold n. replace (n + 1)%nat with (Datatypes.S n) by lia.
        assert (Hold : forall i x, nth_error xs (Datatypes.S i) = Some x -> reused M C m s0 (evs ++ [e]) (Datatypes.S i * 2 ^ m) x).
        { intros i x Hx. pose proof (fo_len _ _ _ _ _ _ _ F) as Hlx. fold n in Hlx.
          assert (Hi : (Datatypes.S i < length xs)%nat) by (apply nth_error_Some; congruence).
          apply reused_snoc; [|apply (fo_reused _ _ _ _ _ _ _ F), Hx].
          pose proof (Nat.mul_div_le n (2 ^ m) Hm). fold n. nia. }
        pose proof (Nat.div_mod n (2 ^ m) Hm) as Hd. pose proof (Nat.mod_upper_bound n (2 ^ m) Hm) as Hd2.
        destruct (Nat.eqb_spec (Datatypes.S n mod 2 ^ m) 0) as [E0|E0].
        - rewrite Hmap. cbn [bind]. destruct (sl_add _ _ HC _ xm (fo_ti _ _ _ _ _ _ _ F)) as (models' & Hadd & HT' & Hincl).
          rewrite Hadd. cbn [bind]. exists models', (xs ++ [xm]). split; [reflexivity|]. split; [exact HT'|].
          assert (Hq : (Datatypes.S n / 2 ^ m = Datatypes.S (n / 2 ^ m))%nat).
          { pose proof (Nat.div_mod (Datatypes.S n) (2 ^ m) Hm) as Hd'. rewrite E0 in Hd'. nia. }
          split. { rewrite Forall_forall. intros x Hx. apply Hincl in Hx as [<-|Hx]; [exact HIm|].
                   pose proof (fo_inv _ _ _ _ _ _ _ F) as HI. rewrite Forall_forall in HI. apply HI, Hx. }
          split. { rewrite st_adds_app, (fo_adds _ _ _ _ _ _ _ F). cbn [bind st_adds]. rewrite Hadd. reflexivity. }
          pose proof (fo_len _ _ _ _ _ _ _ F) as Hlx. fold n in Hlx.
          split. { rewrite app_length. cbn [length]. rewrite Hq. lia. }
          split. { pose proof (fo_first _ _ _ _ _ _ _ F) as H1. destruct xs; [discriminate|exact H1]. }
          intros i x Hx. destruct (Nat.lt_ge_cases (Datatypes.S i) (length xs)) as [Hi|Hi].
          + rewrite nth_error_app1 in Hx by exact Hi. apply Hold, Hx.
          + rewrite nth_error_app2 in Hx by exact Hi.
            destruct (Datatypes.S i - length xs)%nat as [|j] eqn:Ej; [|destruct j; discriminate].
            cbn in Hx. injection Hx as <-. replace (Datatypes.S i * 2 ^ m)%nat with (Datatypes.S n); [exact Hre|].
            pose proof (Nat.div_mod (Datatypes.S n) (2 ^ m) Hm) as Hd'. rewrite E0 in Hd'. nia.
        - exists (fm_models s), xs. split; [reflexivity|]. split; [apply (fo_ti _ _ _ _ _ _ _ F)|].
          split; [apply (fo_inv _ _ _ _ _ _ _ F)|]. split; [apply (fo_adds _ _ _ _ _ _ _ F)|].
          split. { rewrite (fo_len _ _ _ _ _ _ _ F). fold n. f_equal.
                   pose proof (Nat.div_mod (Datatypes.S n) (2 ^ m) Hm) as Hd'.
                   pose proof (Nat.mod_upper_bound (Datatypes.S n) (2 ^ m) Hm). nia. }
          split; [apply (fo_first _ _ _ _ _ _ _ F)|exact Hold]. }
      destruct Hstep as (models' & xs' & Hupd & HT' & HI' & Hadds & Hlx & Hhd & Hreu).
      destruct (factory_ok models' HT' HI') as (a' & Ha' & Hai').
      set (s' := FMN models' p' (Datatypes.S n)) in *.
      assert (Hrun' : run FM s0 (evs ++ [e]) = Ok (s', l + l1)).
      { eapply run_snoc; [apply (fo_run _ _ _ _ _ _ _ F)|exact Hupd]. }
      set (mk' := fun t => if (t <=? n)%nat then mk t else a').
      assert (Hmk' : forall t, (t <= n)%nat -> mk' t = mk t).
      { intros t Ht. unfold mk'. apply Nat.leb_le in Ht. rewrite Ht. reflexivity. }
      exists s', (l + l1), mk', xs'. split; try assumption.
      + rewrite Hlen. reflexivity.
      + intros t. unfold mk'. destruct (t <=? n)%nat; [apply (fo_mk_inv _ _ _ _ _ _ _ F)|exact Hai'].
      + intros t Ht. rewrite Hlen in Ht. destruct (Nat.le_gt_cases t n) as [Htn|Htn].
        * rewrite (Hmk' t Htn), (firstn_snoc_le evs e t Htn). apply (fo_mk _ _ _ _ _ _ _ F t Htn).
        * assert (t = Datatypes.S n) as -> by lia. exists s', (l + l1). rewrite <- Hlen, firstn_all.
          split; [exact Hrun'|]. split; [exact HT'|]. split; [exact HI'|]. rewrite Hlen. unfold mk'.
          replace (Datatypes.S n <=? n)%nat with false by (symmetry; apply Nat.leb_gt; lia). exact Ha'.
      + eapply feed_snoc with (s1 := fm_ptw s).
        * rewrite (Hmk' 0%nat) by lia. rewrite <- (fo_feed _ _ _ _ _ _ _ F). apply feed_ext.
          intros k Hk. rewrite (Hmk' k) by (unfold n; lia). reflexivity.
        * rewrite Nat.add_0_l. fold n. rewrite (Hmk' n) by lia. exact Hu.
      + rewrite Hlen. exact Hlx.
  Qed.
End fmn.
