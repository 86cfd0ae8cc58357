From Coq Require Import Lra.
From Verif Require Import Spec.FMNObjectsSpec Proofs.PyFacts Proofs.FMNFacts Proofs.CopiesFacts Proofs.CopiesUpdate Proofs.FMNObjectsFacts Proofs.FMNObjectsNodes.
Open Scope R_scope.

Lemma forall2_mono {A B} (P Q : A -> B -> Prop) l l' : (forall x y, P x y -> Q x y) -> Forall2 P l l' -> Forall2 Q l l'.
Proof. intros H. induction 1; constructor; auto. Qed.
Lemma forall2_len {A B} (P : A -> B -> Prop) l l' : Forall2 P l l' -> length l = length l'.
Proof. induction 1; cbn; congruence. Qed.

Section scores.
  Context {S : Type} (M : model S).
  Notation fheap := (fheap S).

  Lemma node_logp_ok (h : fheap) a hist : forall fuel n p fp, nrep h p n fp -> (length fp <= fuel)%nat -> node_logp M fuel h p a hist = pnode_log_predict (AVG_model M) n a hist.
  Proof.
    induction fuel as [|fuel IH]; intros n p fp H L; [inversion H; subst; cbn in L; lia|].
    inversion H; subst; cbn [node_logp pnode_log_predict]; unfold get_node, fget; match goal with E : nth_error h p = Some _ |- _ => rewrite !E end; cbn [bind n_base n_height n_count n_blp n_llp n_lp n_right].
    - match goal with HA : arep h b A _ |- _ => rewrite (averager_logp_ok M a hist _ _ _ _ HA) end. reflexivity.
    - match goal with HA : arep h b A _ |- _ => rewrite (averager_logp_ok M a hist _ _ _ _ HA) end. cbn [length] in L. rewrite app_length in L.
      match goal with HN : nrep h r ?n0 ?f |- _ => rewrite (IH n0 r f HN ltac:(lia)) end. reflexivity.
  Qed.

  Definition same_score (h : fheap) (fp : list addr) (x : R * addr) (y : R * avg S) : Prop := fst x = fst y /\ exists f, arep h (snd x) (snd y) f /\ incl f fp.
  Lemma node_scores_ok (h : fheap) : forall fuel n p fp left, nrep h p n fp -> (length fp <= fuel)%nat ->
    exists l, node_scores fuel h p left = Ok l /\ Forall2 (same_score h fp) l (pnode_scores n left).
  Proof.
    induction fuel as [|fuel IH]; intros n p fp left H L; [inversion H; subst; cbn in L; lia|].
    inversion H; subst; cbn [node_scores pnode_scores]; unfold get_node, fget; match goal with E : nth_error h p = Some _ |- _ => rewrite !E end; cbn [bind n_base n_height n_count n_blp n_llp n_lp n_right].
    - eexists. split; [reflexivity|]. constructor; [|constructor]. split; [reflexivity|]. eexists. split; [eassumption|]. intros q Hq. now right.
    - cbn [length] in L. rewrite app_length in L. match goal with HN : nrep h r ?n0 ?f |- _ => destruct (IH n0 r f (left + (llp + log_0_5)) HN ltac:(lia)) as (l & -> & HL) end. cbn [bind].
      eexists. split; [reflexivity|]. constructor.
      + split; [reflexivity|]. eexists. split; [eassumption|]. intros q Hq. right. apply in_or_app. now left.
      + eapply forall2_mono; [|exact HL]. intros x y (E & f & HA & HI). split; [exact E|]. exists f. split; [exact HA|]. intros q Hq. right. apply in_or_app. right. auto.
  Qed.
  Lemma max_score_ok h fp l l' : Forall2 (same_score h fp) l l' -> forall x y, same_score h fp x y -> same_score h fp (max_score x l) (max_score y l').
  Proof.
    induction 1 as [|u v l l' H HL IH]; intros x y HX; [exact HX|]. cbn [max_score]. apply IH. destruct HX as [E X], H as [E1 X1]. rewrite E, E1. destruct (Rlt_dec (fst y) (fst v)); split; auto.
  Qed.

  Definition same_entry (h : fheap) (kv : addr * R) (e : Z * (S * R)) : Prop := snd kv = snd (snd e) /\ is_base h (fst kv) (fst (snd e)).
  Lemma entries h d (dm : dict (S * R)) : map snd d = avg_weights dm -> Forall2 (is_base h) (map fst d) (states dm) -> Forall2 (same_entry h) d dm.
  Proof.
    revert dm. induction d as [|kv d IH]; intros [|e dm] H1 H2; cbn in *; inversion H2; subst; try discriminate; constructor.
    - split; [now injection H1|assumption].
    - apply IH; [now injection H1|assumption].
  Qed.
  Lemma heaviest_ok h d dm : Forall2 (same_entry h) d dm -> forall x y, same_entry h x y -> is_base h (heaviest x d) (fst (snd (max_by y dm))) /\ (In (heaviest x d) (fst x :: map fst d)).
  Proof.
    induction 1 as [|u v d dm H HD IH]; intros x y HX; cbn [heaviest max_by]; [split; [apply HX|now left]|].
    destruct HX as [E X], H as [E1 X1]. rewrite E, E1. destruct (Rlt_dec (snd (snd y)) (snd (snd v))) as [LT|LT].
    - destruct (IH u v) as [I1 I2]; [now split|]. split; [exact I1|]. now right.
    - destruct (IH x y) as [I1 [I2|I2]]; [now split|..]; (split; [exact I1|]); [now left|right; now right].
  Qed.
  Lemma averager_map_ok (h : fheap) b A fp : arep h b A fp -> match avg_map A with
    | Ok (_, m) => exists q, averager_map h b = Ok q /\ is_base h q m /\ In q fp
    | Err e => averager_map h b = Err e
    end.
  Proof.
    intros (d & H1 & H2 & H3 & ->). pose proof (entries _ _ _ H2 H3) as HE. unfold avg_map.
    assert (G : averager_map h b = match d with [] => Err ValueError | kv :: d' => Ok (heaviest kv d') end) by (unfold averager_map, get_avg, fget; now rewrite H1).
    rewrite !G. inversion HE as [|x y d' dm HX HD]; subst; [reflexivity|]. destruct (heaviest_ok _ _ _ HD x y HX) as [I1 I2]. destruct (max_by y dm) as [k [m wt]]. exists (heaviest x d'). split; [reflexivity|]. split; [exact I1|]. right. exact I2.
  Qed.
End scores.

Section top.
  Context {S T1 T2 : Type} (M : model S) (C1 : store_class (S := addr) T1) (C2 : store_class (S := S) T2).
  Notation fheap := (fheap S).
  Variable RT : (addr -> S -> Prop) -> T1 -> T2 -> Prop.
  Hypothesis RT_empty : forall P, RT P (st_empty C1) (st_empty C2).
  Hypothesis RT_add : forall P t1 t2 x y, RT P t1 t2 -> P x y -> match st_lazy_add C2 t2 y with Ok t2' => exists t1', st_lazy_add C1 t1 x = Ok t1' /\ RT P t1' t2' | Err e => st_lazy_add C1 t1 x = Err e end.
  Hypothesis RT_iter : forall P t1 t2, RT P t1 t2 -> Forall2 P (st_iter C1 t1) (st_iter C2 t2).
  Hypothesis RT_mono : forall (P Q : addr -> S -> Prop) t1 t2, (forall x y, P x y -> Q x y) -> RT P t1 t2 -> RT Q t1 t2.
  Hypothesis some_left : forall t y t', t = st_empty C2 \/ st_iter C2 t <> [] -> st_lazy_add C2 t y = Ok t' -> st_iter C2 t' <> [].
  Variable mh : nat.

  Definition kept (h : fheap) (fp : list addr) (x : addr) (y : S) : Prop := is_base h x y /\ ~ In x fp.
  Record inv (fp : list addr) (h : fheap) (f : ofmn (T := T1)) (s : fmn (S := S) (T := T2)) : Prop := Inv {
    i_tree : nrep h (f_tree f) (pt_tree (fm_ptw s)) fp;
    i_nodup : NoDup fp;
    i_models : RT (kept h fp) (f_models f) (fm_models s);
    i_some : st_iter C2 (fm_models s) <> [];
    i_lp : f_lp f = pt_lp (fm_ptw s);
    i_adj : f_adj f = pt_adj (fm_ptw s);
    i_t : f_t f = fm_t s }.

  Lemma kept_grown h h' fp fp' x y : grown h h' fp fp' -> kept h fp x y -> kept h' fp' x y.
  Proof.
    intros (_ & I & L & F) [HB N]. assert (B : (x < length h)%nat) by (apply nth_error_Some; rewrite HB; discriminate). split; [red; rewrite F by assumption; exact HB|]. intros HI. apply I in HI as [HI|HI]; [contradiction|lia].
  Qed.
  Lemma fits (h : fheap) p n fp : nrep h p n fp -> NoDup fp -> (length fp <= tree_fuel h)%nat.
  Proof. intros HN ND. unfold tree_fuel. apply le_S. rewrite <- (seq_length (length h) 0). apply NoDup_incl_length; [exact ND|]. intros q Hq. apply in_seq. pose proof (nrep_bound _ _ _ _ HN q Hq). lia. Qed.
  Lemma kept_bases h fp ks ss : Forall2 (kept h fp) ks ss -> Forall2 (is_base h) ks ss /\ forall q, In q ks -> ~ In q fp.
  Proof. induction 1 as [|k s ks ss [H N] HS [I1 I2]]; [split; [constructor|intros q []]|]. split; [constructor; assumption|]. intros q [<-|Hq]; auto. Qed.
  Lemma factory_ok (h : fheap) ks ss : Forall2 (is_base h) ks ss -> ss <> [] -> exists A, avg_init (number_from 0 ss) = Ok A.
  Proof. intros H N. destruct (model_made h ks ss H N) as (A & h' & b & fp & E & _). eauto. Qed.

  Lemma init_ok fresh : match fmn_init C2 mh fresh with
    | Ok s => exists h f fp, o_init mh C1 fresh = Ok (h, f) /\ inv fp h f s
    | Err e => o_init mh C1 fresh = Err e
    end.
  Proof.
    unfold fmn_init. assert (U : o_init mh C1 fresh = (do models <- st_lazy_add C1 (st_empty C1) 0%nat; do (h, tree) <- make_node mh [CBase fresh] (st_iter C1 models); Ok (h, OFMN models tree 0 0 0))) by reflexivity. rewrite !U. clear U.
    assert (K : kept [CBase fresh] [] 0%nat fresh) by (split; [reflexivity|intros []]).
    pose proof (RT_add (kept [CBase fresh] []) _ _ 0%nat fresh (RT_empty _) K) as HA. pose proof (some_left (st_empty C2) fresh) as HS.
    destruct (st_lazy_add C2 (st_empty C2) fresh) as [t2|e]; cbn [bind]; [|now rewrite HA]. destruct HA as (t1 & -> & HR). cbn [bind]. unfold fmn_factory.
    destruct (kept_bases _ _ _ _ (RT_iter _ _ _ HR)) as [HB _]. specialize (HS t2 (or_introl eq_refl) eq_refl).
    destruct (model_made _ _ _ HB HS) as (A & h1 & b & fp & E & EM & HA & ND & (ext & ->) & N1). rewrite E. cbn [bind]. unfold make_node. rewrite EM. cbn [bind falloc].
    set (h1 := [CBase fresh] ++ ext) in *. do 2 eexists. exists (length h1 :: fp). split; [reflexivity|]. constructor; cbn [f_tree f_models f_lp f_adj f_t fm_ptw fm_models fm_t ptw_init pt_tree pt_lp pt_adj]; auto.
    - unfold new_pnode. apply nr_leaf with b; [rewrite nth_error_app2 by lia; now rewrite Nat.sub_diag|]. apply arep_frame with (1 := HA). intros q Hq. apply nth_error_app1. exact (arep_bound _ _ _ _ HA q Hq).
    - constructor; [intros HI; pose proof (arep_bound _ _ _ _ HA _ HI); lia|exact ND].
    - apply RT_mono with (2 := HR). intros x y [HX _]. assert (B : (x < 1)%nat) by (change 1%nat with (length [CBase fresh]); apply nth_error_Some; rewrite HX; discriminate). split.
      + red. rewrite nth_error_app1 by (unfold h1; rewrite app_length; cbn; lia). unfold h1. rewrite nth_error_app1 by exact B. exact HX.
      + intros [HI|HI]; [unfold h1 in HI; rewrite app_length in HI; cbn in HI; lia|]. apply N1 in HI. cbn in HI. lia.
  Qed.

  Lemma update_ok a hist w fp h f s : inv fp h f s -> match fmn_update M C2 mh s a hist w with
    | Ok (s', r) => exists h' f' fp', o_fmn_update M mh C1 h f a hist w = Ok (h', f', r) /\ inv fp' h' f' s' /\ grown h h' fp fp'
    | Err e => o_fmn_update M mh C1 h f a hist w = Err e
    end.
  Proof.
    intros [IT IN IM IS IL IA It]. destruct (kept_bases _ _ _ _ (RT_iter _ _ _ IM)) as [HB HD].
    destruct (factory_ok _ _ _ HB IS) as (A & EA). unfold fmn_update, fmn_factory. rewrite EA. cbn [bind]. unfold ptw_update.
    destruct (nrep_get _ _ _ _ IT) as (b0 & r0 & G0 & C0).
    pose proof (node_ok M mh (st_iter C1 (f_models f)) (st_iter C2 (fm_models s)) IS a hist w A EA (tree_fuel h) (pt_tree (fm_ptw s)) h (f_tree f) fp IT IN (fits _ _ _ _ IT IN) HB HD) as HU.
    set (t0 := pt_tree (fm_ptw s)) in *.
    set (adj := if partition_is_complete t0 then pt_adj (fm_ptw s) + (p_lp t0 - (log_0_5 + logsumexp2 (p_blp t0) (p_lp t0))) else pt_adj (fm_ptw s)).
    assert (U : o_fmn_update M mh C1 h f a hist w =
      (do h <- node_upd M mh (tree_fuel h) h (f_tree f) (st_iter C1 (f_models f)) a hist w;
       do n <- get_node h (f_tree f);
       let lp := n_lp n + adj in let rv := lp - f_lp f in let t := (f_t f + 1)%nat in
       if Nat.eqb (Nat.modulo t (2 ^ mh)) 0 then
         do nodes <- node_scores (tree_fuel h) h (f_tree f) 0;
         match nodes with
         | [] => Err ValueError
         | x :: l => do best <- averager_map h (snd (max_score x l)); do (h, c) <- base_copy h best; do models <- st_lazy_add C1 (f_models f) c; Ok (h, OFMN models (f_tree f) lp adj t, rv)
         end
       else Ok (h, OFMN (f_models f) (f_tree f) lp adj t, rv))).
    { unfold o_fmn_update. rewrite G0. cbn [bind]. rewrite C0. cbn [n_lp n_blp]. rewrite IA. reflexivity. }
    rewrite !U. clear U. destruct (pnode_update (AVG_model M) mh A t0 a hist w) as [t'|e]; cbn [bind]; [|now rewrite HU]. destruct HU as (h1 & fp1 & -> & N1 & GR). cbn [bind].
    destruct (nrep_get _ _ _ _ N1) as (b1 & r1 & G1 & _). rewrite G1. cbn [bind n_lp]. cbv zeta. rewrite IL, It.
    assert (K1 : RT (kept h1 fp1) (f_models f) (fm_models s)) by (apply RT_mono with (2 := IM); intros x y; now apply kept_grown).
    assert (ND1 : NoDup fp1) by apply GR.
    destruct (Nat.eqb (Nat.modulo (fm_t s + 1) (2 ^ mh)) 0).
    - destruct (node_scores_ok h1 _ _ _ _ 0 N1 (fits _ _ _ _ N1 ND1)) as (l & -> & HL). cbn [bind]. unfold ptw_map. cbn [pt_tree].
      inversion HL as [E1 E2|x y l1 l2 HX HL1 E1 E2]; [destruct t'; discriminate|]. subst l. destruct (max_score_ok _ _ _ _ HL1 _ _ HX) as (_ & fa & HA & HI).
      pose proof (averager_map_ok _ _ _ _ HA) as HM. destruct (avg_map (snd (max_score y l2))) as [[k m]|e]; cbn [bind]; [|now rewrite HM]. destruct HM as (q & -> & HQ & _). cbn [bind].
      unfold base_copy, fget. rewrite HQ. cbn [bind falloc]. set (h2 := h1 ++ [CBase m]).
      assert (K2 : RT (kept h2 fp1) (f_models f) (fm_models s)).
      { apply RT_mono with (2 := K1). intros u v [HU HN]. split; [|exact HN]. red. unfold h2. rewrite nth_error_app1; [exact HU|]. apply nth_error_Some. rewrite HU. discriminate. }
      assert (Kc : kept h2 fp1 (length h1) m) by (split; [red; unfold h2; rewrite nth_error_app2 by lia; now rewrite Nat.sub_diag|intros HH; pose proof (nrep_bound _ _ _ _ N1 _ HH); lia]).
      pose proof (RT_add _ _ _ _ _ K2 Kc) as HS. pose proof (some_left (fm_models s) m) as SL. destruct (st_lazy_add C2 (fm_models s) m) as [t2|e]; cbn [bind]; [|now rewrite HS]. destruct HS as (t1 & -> & HR). cbn [bind].
      do 2 eexists. exists fp1. split; [reflexivity|]. split.
      + constructor; cbn [f_tree f_models f_lp f_adj f_t fm_ptw fm_models fm_t pt_tree pt_lp pt_adj]; auto. apply nrep_frame with (1 := N1). intros u Hu. unfold h2. apply nth_error_app1. exact (nrep_bound _ _ _ _ N1 u Hu).
      + destruct GR as (Q1 & Q2 & Q3 & Q4). split; [exact Q1|]. split; [exact Q2|]. split; [unfold h2; rewrite app_length; lia|]. intros u Hu Hn. unfold h2. rewrite nth_error_app1 by lia. auto.
    - do 2 eexists. exists fp1. split; [reflexivity|]. split; [|exact GR]. constructor; cbn [f_tree f_models f_lp f_adj f_t fm_ptw fm_models fm_t pt_tree pt_lp pt_adj]; auto.
  Qed.

  Lemma logp_ok a hist fp h f s : inv fp h f s -> o_fmn_logp M h f a hist = fmn_log_predict M s a hist.
  Proof.
    intros [IT IN IM IS IL IA It]. unfold o_fmn_logp, fmn_log_predict, ptw_log_predict. destruct (nrep_get _ _ _ _ IT) as (b0 & r0 & -> & C0). cbn [bind]. rewrite C0. cbn [n_lp n_blp]. rewrite IA, IL.
    rewrite (node_logp_ok M h a hist _ _ _ _ IT (fits _ _ _ _ IT IN)). reflexivity.
  Qed.

  Lemma replies_ok calls : forall fp h f s, inv fp h f s -> replies (OFMN_model M mh C1) (h, f) calls = replies (FMN_model M C2 mh) s calls.
  Proof.
    induction calls as [|[e|a hist] calls IH]; intros fp h f s HI; cbn [replies OFMN_model FMN_model m_update m_logp fst snd]; [reflexivity|..].
    - pose proof (update_ok (ev_sym e) (ev_hist e) (ev_wt e) _ _ _ _ HI) as HU. destruct (fmn_update M C2 mh s (ev_sym e) (ev_hist e) (ev_wt e)) as [[s' r]|x]; [|now rewrite HU].
      destruct HU as (h' & f' & fp' & -> & HI' & _). cbn [bind]. now rewrite (IH _ _ _ _ HI').
    - rewrite (logp_ok _ _ _ _ _ _ HI). destruct (fmn_log_predict M s a hist) as [r|x]; cbn [bind]; [|reflexivity]. now rewrite (IH _ _ _ _ HI).
  Qed.
  Lemma deep_ok fresh calls : (do s <- o_init mh C1 fresh; replies (OFMN_model M mh C1) s calls) = (do s <- fmn_init C2 mh fresh; replies (FMN_model M C2 mh) s calls).
  Proof.
    pose proof (init_ok fresh) as HI. destruct (fmn_init C2 mh fresh) as [s|e]; [|now rewrite HI]. destruct HI as (h & f & fp & -> & HI). cbn [bind]. exact (replies_ok calls _ _ _ _ HI).
  Qed.

  Lemma after_ok calls : forall fp h f s h' f', inv fp h f s -> after (OFMN_model M mh C1) (h, f) calls = Ok (h', f') -> exists fp' s', inv fp' h' f' s' /\
    forall q, (q < length h)%nat -> ~ In q fp -> (q < length h')%nat /\ ~ In q fp' /\ nth_error h' q = nth_error h q.
  Proof.
    induction calls as [|[e|a hist] calls IH]; intros fp h f s h' f' HI HA; cbn [after OFMN_model m_update m_logp fst snd] in HA.
    - injection HA as <- <-. eauto 10.
    - pose proof (update_ok (ev_sym e) (ev_hist e) (ev_wt e) _ _ _ _ HI) as HU. destruct (fmn_update M C2 mh s (ev_sym e) (ev_hist e) (ev_wt e)) as [[s' r]|x]; [|rewrite HU in HA; discriminate].
      destruct HU as (h1 & f1 & fp1 & E & HI1 & GR). rewrite E in HA. cbn [bind] in HA. destruct (IH _ _ _ _ _ _ HI1 HA) as (fp' & s2 & HI2 & HK). exists fp', s2. split; [exact HI2|]. intros q Bq Nq.
      destruct GR as (_ & Q2 & Q3 & Q4). destruct (HK q) as (K1 & K2 & K3); [lia|intros HH; apply Q2 in HH as [HH|HH]; [contradiction|lia]|]. split; [exact K1|]. split; [exact K2|]. rewrite K3. auto.
    - destruct (o_fmn_logp M h f a hist) as [r|x]; cbn [bind] in HA; [|discriminate]. eauto.
  Qed.
  Lemma snapshots_ok fresh calls more s1 s2 : (do s <- o_init mh C1 fresh; after (OFMN_model M mh C1) s calls) = Ok s1 -> after (OFMN_model M mh C1) s1 more = Ok s2 ->
    forall q, In q (st_iter C1 (f_models (snd s1))) -> exists c, nth_error (fst s1) q = Some (CBase c) /\ nth_error (fst s2) q = Some (CBase c).
  Proof.
    intros H1 H2 q Hq. pose proof (init_ok fresh) as HI. destruct (fmn_init C2 mh fresh) as [s|e]; [|rewrite HI in H1; discriminate]. destruct HI as (h & f & fp & E & HI). rewrite E in H1. cbn [bind] in H1. destruct s1 as [h1 f1], s2 as [h2 f2].
    destruct (after_ok calls _ _ _ _ _ _ HI H1) as (fp1 & s1 & HI1 & _). destruct (after_ok more _ _ _ _ _ _ HI1 H2) as (fp2 & s2 & _ & HK). cbn [fst snd] in *.
    assert (exists c, kept h1 fp1 q c) as (c & HB & HN).
    { pose proof (RT_iter _ _ _ (i_models _ _ _ _ HI1)) as HF. clear - HF Hq. induction HF as [|x y l l' H HF IH]; [destruct Hq|]. destruct Hq as [<-|Hq]; [eauto|auto]. }
    exists c. split; [exact HB|]. destruct (HK q) as (_ & _ & ->); [apply nth_error_Some; rewrite HB; discriminate|exact HN|exact HB].
  Qed.
End top.

(** ** The two stores *)
Section logstore.
  Context {S : Type}.
  Definition slot (P : addr -> S -> Prop) (x : addr * bool) (y : S * bool) : Prop := P (fst x) (fst y) /\ snd x = snd y.
  Definition ls_rel (P : addr -> S -> Prop) (t1 : logstore addr) (t2 : logstore S) : Prop := Forall2 (slot P) t1 t2.
  Lemma ls_rel_add P t1 t2 : ls_rel P t1 t2 -> forall x y, P x y -> ls_rel P (ls_add t1 x) (ls_add t2 y).
  Proof.
    induction 1 as [|[u b] [v b'] t1 t2 [H E] HT IH]; intros x y HX; cbn in *; [constructor; [now split|constructor]|]. subst b'. destruct b; constructor; try (now split); auto. now apply IH.
  Qed.
  Lemma ls_rel_iter P t1 t2 : ls_rel P t1 t2 -> Forall2 P (ls_iter t1) (ls_iter t2).
  Proof. unfold ls_iter. induction 1 as [|x y t1 t2 [H E] HT IH]; cbn; constructor; auto. Qed.
  Lemma ls_add_some (t : logstore S) y : ls_iter (ls_add t y) <> [].
  Proof. destruct t as [|[u []] t]; discriminate. Qed.
  Lemma ls_rel_lazy P t1 t2 x y : ls_rel P t1 t2 -> P x y -> match st_lazy_add (LogStore_class S) t2 y with Ok t2' => exists t1', st_lazy_add (LogStore_class addr) t1 x = Ok t1' /\ ls_rel P t1' t2' | Err e => st_lazy_add (LogStore_class addr) t1 x = Err e end.
  Proof. intros H HX. cbn. eexists. split; [reflexivity|]. now apply ls_rel_add. Qed.
  Lemma ls_rel_mono (P Q : addr -> S -> Prop) t1 t2 : (forall x y, P x y -> Q x y) -> ls_rel P t1 t2 -> ls_rel Q t1 t2.
  Proof. intros H. apply forall2_mono. intros x y [H1 H2]. split; auto. Qed.
  Lemma ls_some_left t y t' : t = st_empty (LogStore_class S) \/ st_iter (LogStore_class S) t <> [] -> st_lazy_add (LogStore_class S) t y = Ok t' -> st_iter (LogStore_class S) t' <> [].
  Proof. intros _ E. cbn in *. injection E as <-. apply ls_add_some. Qed.
End logstore.

Section ustore.
  Context {S : Type}.
  Definition us_rel (P : addr -> S -> Prop) (t1 : ustore addr) (t2 : ustore S) : Prop :=
    Forall2 P (us_items t1) (us_items t2) /\ us_gap t1 = us_gap t2 /\ us_remove t1 = us_remove t2 /\ us_skip t1 = us_skip t2.
  Lemma del_rel {A B} (P : A -> B -> Prop) l l' i : Forall2 P l l' -> match py_del l' i with Ok m' => exists m, py_del l i = Ok m /\ Forall2 P m m' | Err e => py_del l i = Err e end.
  Proof.
    intros H. assert (E : py_index l i = py_index l' i) by (unfold py_index; now rewrite (forall2_len _ _ _ H)). unfold py_del. rewrite !E. destruct (py_index l' i) as [k|]; cbn [bind]; [|reflexivity]. eexists. split; [reflexivity|]. clear E.
    revert k. induction H as [|x y l l' HX HL IH]; intros [|k]; cbn; auto; constructor; auto.
  Qed.
  Lemma us_rel_lazy P t1 t2 x y : us_rel P t1 t2 -> P x y -> match st_lazy_add (LogStoreUniform_class S) t2 y with Ok t2' => exists t1', st_lazy_add (LogStoreUniform_class addr) t1 x = Ok t1' /\ us_rel P t1' t2' | Err e => st_lazy_add (LogStoreUniform_class addr) t1 x = Err e end.
  Proof.
    intros (HI & HG & HR & HS) HX. cbn [st_lazy_add LogStoreUniform_class]. unfold us_add, us_lazy_add. rewrite HG, HR, HS. destruct (negb (us_skip t2 =? 0)%Z); cbn [bind].
    - eexists. split; [reflexivity|]. repeat split; cbn; auto; congruence.
    - assert (HA : Forall2 P (us_items t1 ++ [x]) (us_items t2 ++ [y])) by (apply Forall2_app; [exact HI|now repeat constructor]).
      pose proof (del_rel _ _ _ (us_remove t2) HA) as HD. destruct (0 <? us_remove t2)%Z; cbn [bind].
      + destruct (py_del (us_items t2 ++ [y]) (us_remove t2)) as [m'|e]; cbn [bind]; [|now rewrite HD]. destruct HD as (m & -> & HM). cbn [bind]. rewrite (forall2_len _ _ _ HM). destruct (us_remove t2 + 1 >=? Z.of_nat (length m'))%Z; cbn [bind]; eexists; (split; [reflexivity|]); repeat split; cbn; auto; congruence.
      + rewrite (forall2_len _ _ _ HA). destruct (us_remove t2 + 1 >=? Z.of_nat (length (us_items t2 ++ [y])))%Z; cbn [bind]; eexists; (split; [reflexivity|]); repeat split; cbn; auto; congruence.
  Qed.
  Lemma forall2_rev {A B} (P : A -> B -> Prop) l l' : Forall2 P l l' -> Forall2 P (rev l) (rev l').
  Proof. induction 1; cbn; [constructor|]. apply Forall2_app; auto. Qed.
  Lemma us_rel_iter P t1 t2 : us_rel P t1 t2 -> Forall2 P (us_iter t1) (us_iter t2).
  Proof. intros (H & _). unfold us_iter. now apply forall2_rev. Qed.
  Lemma us_rel_mono (P Q : addr -> S -> Prop) t1 t2 : (forall x y, P x y -> Q x y) -> us_rel P t1 t2 -> us_rel Q t1 t2.
  Proof. intros H (H1 & H2). split; [|exact H2]. now apply forall2_mono with (1 := H). Qed.
  Lemma us_some_left t y t' : t = st_empty (LogStoreUniform_class S) \/ st_iter (LogStoreUniform_class S) t <> [] -> st_lazy_add (LogStoreUniform_class S) t y = Ok t' -> st_iter (LogStoreUniform_class S) t' <> [].
  Proof.
    cbn [st_lazy_add st_iter st_empty LogStoreUniform_class]. intros [->|N] E; [cbn in E; injection E as <-; discriminate|].
    assert (NI : us_items t <> []) by (intros E0; apply N; unfold us_iter; now rewrite E0). clear N. revert E. unfold us_add, us_lazy_add. destruct (negb (us_skip t =? 0)%Z); cbn [bind].
    - intros E. injection E as <-. unfold us_iter. cbn [us_items]. intros E0. apply NI. apply (f_equal (@rev S)) in E0. now rewrite rev_involutive in E0.
    - assert (L : forall l : list S, (1 <= length l)%nat -> rev l <> []) by (intros l L E0; apply (f_equal (@length S)) in E0; rewrite rev_length in E0; cbn in E0; lia).
      assert (L2 : (2 <= length (us_items t ++ [y]))%nat) by (rewrite app_length; destruct (us_items t); [now destruct NI|cbn; lia]).
      set (items1 := us_items t ++ [y]) in *. destruct (0 <? us_remove t)%Z; cbn [bind].
      + unfold py_del. destruct (py_index items1 (us_remove t)) as [k|]; [|discriminate]. cbn [bind]. set (m := list_del items1 k).
        assert (LM : (1 <= length m)%nat) by (unfold m; clear - L2; assert (G : forall (l : list S) k, (length l <= Datatypes.S (length (list_del l k)))%nat) by (induction l as [|z l IH]; intros [|j]; cbn; try lia; specialize (IH j); lia); specialize (G items1 k); lia).
        destruct (us_remove t + 1 >=? Z.of_nat (length m))%Z; cbn [bind]; intros E; injection E as <-; apply L; exact LM.
      + destruct (us_remove t + 1 >=? Z.of_nat (length items1))%Z; cbn [bind]; intros E; injection E as <-; apply L; cbn [us_items]; lia.
  Qed.
End ustore.

Section final.
  Context {S : Type} (M : model S) (mh : nat).
  Lemma logstore_deep fresh calls : (do s <- o_init mh (LogStore_class addr) fresh; replies (OFMN_model M mh (LogStore_class addr)) s calls) = (do s <- fmn_init (LogStore_class S) mh fresh; replies (FMN_model M (LogStore_class S) mh) s calls).
  Proof. apply deep_ok with (RT := ls_rel); [constructor|intros; now apply ls_rel_lazy|intros; now apply ls_rel_iter|exact ls_rel_mono|exact ls_some_left]. Qed.
  Lemma uniform_deep fresh calls : (do s <- o_init mh (LogStoreUniform_class addr) fresh; replies (OFMN_model M mh (LogStoreUniform_class addr)) s calls) = (do s <- fmn_init (LogStoreUniform_class S) mh fresh; replies (FMN_model M (LogStoreUniform_class S) mh) s calls).
  Proof. apply deep_ok with (RT := us_rel); [intros P; repeat split; constructor|intros; now apply us_rel_lazy|intros; now apply us_rel_iter|exact us_rel_mono|exact us_some_left]. Qed.
  Lemma logstore_snapshots fresh calls more s1 s2 : (do s <- o_init mh (LogStore_class addr) fresh; after (OFMN_model M mh (LogStore_class addr)) s calls) = Ok s1 -> after (OFMN_model M mh (LogStore_class addr)) s1 more = Ok s2 ->
    forall q, In q (ls_iter (f_models (snd s1))) -> exists c, nth_error (fst s1) q = Some (CBase c) /\ nth_error (fst s2) q = Some (CBase c).
  Proof. apply (snapshots_ok M (LogStore_class addr) (LogStore_class S) ls_rel); [constructor|intros; now apply ls_rel_lazy|intros; now apply ls_rel_iter|exact ls_rel_mono|exact ls_some_left]. Qed.
  Lemma uniform_snapshots fresh calls more s1 s2 : (do s <- o_init mh (LogStoreUniform_class addr) fresh; after (OFMN_model M mh (LogStoreUniform_class addr)) s calls) = Ok s1 -> after (OFMN_model M mh (LogStoreUniform_class addr)) s1 more = Ok s2 ->
    forall q, In q (us_iter (f_models (snd s1))) -> exists c, nth_error (fst s1) q = Some (CBase c) /\ nth_error (fst s2) q = Some (CBase c).
  Proof. apply (snapshots_ok M (LogStoreUniform_class addr) (LogStoreUniform_class S) us_rel); [intros P; repeat split; constructor|intros; now apply us_rel_lazy|intros; now apply us_rel_iter|exact us_rel_mono|exact us_some_left]. Qed.
End final.
