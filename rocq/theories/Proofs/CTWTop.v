From Coq Require Import Lra.
From Verif Require Import Model.CTW Spec.CTWSpec Spec.Ops.
From Verif Require Import Proofs.RealFacts Proofs.PyFacts Proofs.ProbFacts Proofs.CTWFacts.
Open Scope R_scope.

(** ** The default context *)
Lemma recent_length d h : length (recent d h) = d.
Proof.
  unfold recent. rewrite firstn_length, app_length, rev_length, repeat_length. lia.
Qed.

Lemma rev_repeat {A} (x : A) n : rev (repeat x n) = repeat x n.
Proof.
  induction n as [|n IH]; [reflexivity|]. cbn [repeat rev]. rewrite IH.
  clear. induction n as [|n IH]; [reflexivity|]. cbn [repeat app]. rewrite IH. reflexivity.
Qed.

Lemma firstn_repeat {A} (x : A) k n : firstn k (repeat x n) = repeat x (Nat.min k n).
Proof.
  revert n; induction k as [|k IH]; intros [|n]; cbn [firstn repeat Nat.min]; [reflexivity..|].
  rewrite IH. reflexivity.
Qed.

Lemma mkcontext_recent d h : (0 < d)%nat -> rev (mkcontext (Z.of_nat d) h) = recent d h.
Proof.
  intros Hd. unfold mkcontext, recent, py_repeat, slice_from.
  destruct (Nat.le_gt_cases d (length h)) as [Hle|Hgt].
  - rewrite slice_start_neg by lia.
    replace (Z.to_nat (Z.of_nat d - Z.of_nat (length h))) with 0%nat by lia. cbn [repeat app].
    rewrite firstn_app, rev_length. replace (d - length h)%nat with 0%nat by lia.
    rewrite firstn_O, app_nil_r, firstn_rev. f_equal.
  - replace (slice_start h (- Z.of_nat d)) with 0%nat.
    2:{ unfold slice_start. destruct (- Z.of_nat d <? 0)%Z eqn:E; [|lia]. lia. }
    cbn [skipn]. rewrite rev_app_distr, rev_repeat, firstn_app, rev_length.
    rewrite (firstn_all2 (rev h)) by (rewrite rev_length; lia). f_equal.
    rewrite firstn_repeat. f_equal. lia.
Qed.

Lemma mkcontext_zero h : mkcontext 0 h = h.
Proof.
  unfold mkcontext, py_repeat, slice_from, slice_start. cbn [Z.opp].
  replace (Z.to_nat (0 - Z.of_nat (length h))) with 0%nat by lia.
  replace (0 <? 0)%Z with false by reflexivity.
  replace (Z.to_nat (Z.min 0 (Z.of_nat (length h)))) with 0%nat by lia. reflexivity.
Qed.

Lemma recent_incl K d h : In 0%Z K -> incl h K -> incl (recent d h) K.
Proof.
  intros H0 Hh x Hx. unfold recent in Hx.
  assert (Hx': In x (rev h ++ repeat 0%Z d)).
  { rewrite <- (firstn_skipn d). apply in_or_app. left; exact Hx. }
  apply in_app_or in Hx' as [H|H].
  - apply Hh. apply in_rev. exact H.
  - apply repeat_spec in H as ->. exact H0.
Qed.

(** ** Node counts *)
Fixpoint nodes {S} (n : cnode S) : nat :=
  match n with CNode _ _ _ _ ch => Datatypes.S (list_sum (map (fun kn => nodes (snd kn)) ch)) end.

Section size.
  Context {S : Type} (M : model S) (fresh : S) (binary : bool).

  Lemma nodes_set (ch : list (Z * cnode S)) k new :
    list_sum (map (fun kn => nodes (snd kn)) (dict_set ch k new)) =
    match dict_get ch k with
    | Some old => (list_sum (map (fun kn => nodes (snd kn)) ch) + nodes new - nodes old)%nat
    | None => (list_sum (map (fun kn => nodes (snd kn)) ch) + nodes new)%nat
    end /\
    match dict_get ch k with
    | Some old => (nodes old <= list_sum (map (fun kn => nodes (snd kn)) ch))%nat
    | None => True
    end.
  Proof.
    induction ch as [|[k' v] ch IH]; cbn [dict_set dict_get map].
    - cbn [list_sum fold_right snd]. split; [lia|auto].
    - destruct (k' =? k)%Z; cbn [map list_sum fold_right snd].
      + split; lia.
      + fold (list_sum (map (fun kn : Z * cnode S => nodes (snd kn)) (dict_set ch k new))).
        fold (list_sum (map (fun kn : Z * cnode S => nodes (snd kn)) ch)).
        destruct IH as [IH1 IH2]. destruct (dict_get ch k); split; lia.
  Qed.

  Lemma node_update_size c : forall n a h w n' r made,
    node_update M fresh binary c n a h w = Ok (n', r, made) ->
    nodes n' = (nodes n + made)%nat /\ (made <= length c)%nat.
  Proof.
    induction c as [|k c IH]; intros [base blp clp lp ch] a h w n' r made; cbn [node_update];
      destruct (m_update M base a h w) as [[b' l]|x]; cbn [bind]; try discriminate.
    - intros H; injection H as <- <- <-. cbn [nodes]. split; [lia|cbn; lia].
    - destruct (child_key binary k) as [k'|]; cbn [bind]; [|discriminate].
      destruct (nodes_set ch k' (new_node fresh)) as [_ Hle].
      destruct (dict_get ch k') as [old|] eqn:E; cbn beta iota.
      + destruct (node_update M fresh binary c old a h w) as [[[child' r'] more]|x] eqn:Hu; cbn [bind]; [|discriminate].
        intros H; injection H as <- <- <-. destruct (IH _ _ _ _ _ _ _ Hu) as [H1 H2].
        destruct (nodes_set ch k' child') as [Hs Hle']. rewrite E in *. cbn [nodes length]. rewrite Hs. lia.
      + destruct (node_update M fresh binary c (new_node fresh) a h w) as [[[child' r'] more]|x] eqn:Hu; cbn [bind]; [|discriminate].
        intros H; injection H as <- <- <-. destruct (IH _ _ _ _ _ _ _ Hu) as [H1 H2].
        destruct (nodes_set ch k' child') as [Hs _]. rewrite E in Hs. cbn [nodes length new_node map list_sum fold_right] in *. rewrite Hs. lia.
  Qed.

  Lemma node_log_predict_size c : forall n a h n' r made,
    node_log_predict M fresh binary c n a h = Ok (n', r, made) ->
    nodes n' = (nodes n + made)%nat /\ (made <= length c)%nat.
  Proof.
    induction c as [|k c IH]; intros [base blp clp lp ch] a h n' r made; cbn [node_log_predict];
      destruct (m_logp M base a h) as [l|x]; cbn [bind]; try discriminate.
    - intros H; injection H as <- <- <-. cbn [nodes]. split; [lia|cbn; lia].
    - destruct (child_key binary k) as [k'|]; cbn [bind]; [|discriminate].
      destruct (dict_get ch k') as [old|] eqn:E; cbn beta iota.
      + destruct (node_log_predict M fresh binary c old a h) as [[[child' r'] more]|x] eqn:Hu; cbn [bind]; [|discriminate].
        intros H; injection H as <- <- <-. destruct (IH _ _ _ _ _ _ Hu) as [H1 H2].
        destruct (nodes_set ch k' child') as [Hs Hle']. rewrite E in *. cbn [nodes length]. rewrite Hs. lia.
      + destruct (node_log_predict M fresh binary c (new_node fresh) a h) as [[[child' r'] more]|x] eqn:Hu; cbn [bind]; [|discriminate].
        intros H; injection H as <- <- <-. destruct (IH _ _ _ _ _ _ Hu) as [H1 H2].
        destruct (nodes_set ch k' child') as [Hs _]. rewrite E in Hs. cbn [nodes length new_node map list_sum fold_right] in *. rewrite Hs. lia.
  Qed.

  Lemma mkcontext_length d h : (0 < d)%nat -> length (mkcontext (Z.of_nat d) h) = d.
  Proof. intros Hd. rewrite <- rev_length, mkcontext_recent by exact Hd. apply recent_length. Qed.

  Lemma do_op_size d o s s' r : ctw_depth s = d -> do_op (ctw_update M fresh binary) (ctw_log_predict M fresh binary) s o = Ok (s', r) ->
    ctw_depth s' = d /\ exists h made, ctw_size s' = (ctw_size s + made)%nat /\ (made <= length (mkcontext d h))%nat /\
      nodes (ctw_tree s') = (nodes (ctw_tree s) + made)%nat.
  Proof.
    intros Hd. destruct o as [a h w|a h]; cbn [do_op]; unfold ctw_update, ctw_log_predict, ctw_update_with, ctw_log_predict_with.
    - destruct (node_update _ _ _ _ _ _ _ _) as [[[t r'] made]|x] eqn:E; cbn [bind]; [|discriminate].
      intros H; injection H as <- <-. apply node_update_size in E as [E1 E2]. cbn [ctw_depth ctw_size ctw_tree].
      split; [exact Hd|]. exists h, made. rewrite rev_length, Hd in E2. auto.
    - destruct (node_log_predict _ _ _ _ _ _ _) as [[[t r'] made]|x] eqn:E; cbn [bind]; [|discriminate].
      intros H; injection H as <- <-. apply node_log_predict_size in E as [E1 E2]. cbn [ctw_depth ctw_size ctw_tree].
      split; [exact Hd|]. exists h, made. rewrite rev_length, Hd in E2. auto.
  Qed.

  Lemma ctw_size_nodes d ops s s' rs : (0 < d)%nat -> ctw_depth s = Z.of_nat d -> ctw_size s = nodes (ctw_tree s) ->
    exec (ctw_update M fresh binary) (ctw_log_predict M fresh binary) s ops = Ok (s', rs) ->
    ctw_size s' = nodes (ctw_tree s') /\ (ctw_size s <= ctw_size s' <= ctw_size s + d * length ops)%nat.
  Proof.
    intros Hd. revert s rs; induction ops as [|o ops IH]; intros s rs Hsd Hsz; cbn [exec].
    - intros H; injection H as <- <-. split; [exact Hsz|]. cbn. lia.
    - destruct (do_op _ _ s o) as [[s1 r1]|x] eqn:E; cbn [bind]; [|discriminate].
      destruct (exec _ _ s1 ops) as [[s2 r2]|x] eqn:E2; cbn [bind]; [|discriminate].
      intros H; injection H as <- <-.
      destruct (do_op_size _ _ _ _ _ Hsd E) as (Hd1 & h & made & Hs1 & Hm & Hn).
      rewrite mkcontext_length in Hm by exact Hd.
      destruct (IH s1 r2 Hd1 ltac:(lia) E2) as [H1 H2]. split; [exact H1|]. cbn [length]. lia.
  Qed.
End size.

(** ** CTW as a whole *)
Section top.
  Context {S : Type} (M : model S) (fresh : S) (binary : bool).
  Context (A : list Z) (okh : list Z -> Prop) (okw : R -> Prop) (Inv : S -> Prop).
  Hypothesis HS : steps M A okh okw Inv.
  Hypothesis Hfresh : Inv fresh.
  Variable K : list Z.
  Hypothesis HK : NoDup K.
  Hypothesis Hkey : forall k, In k K -> child_key binary k = Ok k.
  (** a context function: [mkctx] as given to the constructor, of fixed length [D] *)
  Variable mkctx : list Z -> list Z.
  Variable D : nat.
  Hypothesis Hctx : forall h, okh h -> length (mkctx h) = D /\ incl (mkctx h) K.

  Notation ctx := (fun h => rev (mkctx h)).
  Notation prob evs := (ctw_prob M fresh ctx K D [] evs).

  Definition ctw_rep (evs : list event) (s : ctw (S := S)) : Prop :=
    Forall (ok_event A okh okw) evs /\ rep M fresh ctx K D [] (ctw_tree s) evs.

  Lemma ctw_rep_init d : ctw_rep [] (ctw_init fresh d).
  Proof. split; [constructor|]. apply rep_fresh. reflexivity. Qed.

  Lemma ctw_rep_lp evs s : ctw_rep evs s -> c_lp (ctw_tree s) = ln (prob evs).
  Proof.
    intros [_ H]. rewrite <- (rep_prob M fresh ctx K HK _ _ _ _ H), ln_exp. reflexivity.
  Qed.

  Lemma ctw_prob_pos evs s : ctw_rep evs s -> 0 < prob evs.
  Proof. intros [_ H]. rewrite <- (rep_prob M fresh ctx K HK _ _ _ _ H). apply exp_pos. Qed.

  Lemma ctw_step evs s e : ctw_rep evs s -> ok_event A okh okw e ->
    exists s' s'' l,
      ctw_update_with M fresh binary mkctx s (ev_sym e) (ev_hist e) (ev_wt e) = Ok (s', l) /\
      ctw_log_predict_with M fresh binary mkctx s (ev_sym e) (ev_hist e) = Ok (s'', l) /\
      ctw_rep (evs ++ [e]) s' /\ ctw_rep evs s'' /\ l = ln (prob (evs ++ [e])) - ln (prob evs) /\
      ctw_depth s' = ctw_depth s /\ ctw_depth s'' = ctw_depth s.
  Proof.
    intros Hr He. pose proof Hr as [Hev Hrep].
    destruct (Hctx (ev_hist e)) as [Hlen Hinc]; [apply He|].
    assert (Hok: ok_ctx ctx K D [] e (rev (mkctx (ev_hist e)))).
    { repeat split.
      - rewrite rev_length. exact Hlen.
      - intros x Hx. apply Hinc. apply in_rev. exact Hx. }
    destruct (node_update_rep M fresh binary A okh okw Inv HS Hfresh ctx K Hkey D [] _ evs e _ Hev He Hok Hrep)
      as (n' & made & Hu & Hrep' & n'' & Hp & Hrep'' & _).
    unfold ctw_update_with, ctw_log_predict_with. rewrite Hu, Hp. cbn [bind].
    assert (Hev': Forall (ok_event A okh okw) (evs ++ [e])) by (apply Forall_app; split; [exact Hev|constructor; [exact He|constructor]]).
    exists (CTW (ctw_depth s) n' (ctw_size s + made)), (CTW (ctw_depth s) n'' (ctw_size s + made)), (c_lp n' - c_lp (ctw_tree s)).
    split; [reflexivity|]. split; [reflexivity|].
    assert (R1: ctw_rep (evs ++ [e]) (CTW (ctw_depth s) n' (ctw_size s + made))) by (split; assumption).
    split; [exact R1|]. split; [split; assumption|].
    rewrite <- (ctw_rep_lp _ _ R1), <- (ctw_rep_lp _ _ Hr). auto.
  Qed.

  Lemma ctw_steps_with : steps (CTW_model_with M fresh binary mkctx) A okh okw (fun s => exists evs, ctw_rep evs s).
  Proof.
    intros s a h w [evs Hr] Ha Hh Hw.
    destruct (ctw_step evs s (Event a h w) Hr (conj Ha (conj Hh Hw))) as (s' & s'' & l & Hu & Hp & Hr' & _).
    cbn [ev_sym ev_hist ev_wt] in *. cbn [CTW_model_with m_update m_logp]. exists s', l.
    rewrite Hp. cbn [bind]. eauto.
  Qed.

  Lemma ctw_run_with evs0 evs s : ctw_rep evs0 s -> Forall (ok_event A okh okw) evs ->
    exists s' l, run (CTW_model_with M fresh binary mkctx) s evs = Ok (s', l) /\ ctw_rep (evs0 ++ evs) s' /\
                 l = ln (prob (evs0 ++ evs)) - ln (prob evs0).
  Proof.
    revert evs0 s; induction evs as [|e evs IH]; intros evs0 s Hr Hev; cbn [run].
    - exists s, 0. rewrite app_nil_r. split; [reflexivity|]. split; [exact Hr|lra].
    - inversion Hev as [|x y He Hev']; subst.
      destruct (ctw_step evs0 s e Hr He) as (s1 & s0 & l1 & Hu & _ & Hr1 & _ & Hl1 & _).
      cbn [CTW_model_with m_update]. rewrite Hu. cbn [bind].
      destruct (IH _ _ Hr1 Hev') as (s2 & l2 & Hrun & Hr2 & Hl2). fold (CTW_model_with M fresh binary mkctx).
      rewrite Hrun. cbn [bind]. rewrite <- app_assoc in *. cbn [app] in *.
      exists s2, (l1 + l2). split; [reflexivity|]. split; [exact Hr2|lra].
  Qed.

  (** *** log_predict has no observable effect *)
  Definition op_event (o : op) : event :=
    match o with OpUpdate a h w => Event a h w | OpPredict a h => Event a h 1 end.
  Definition ok_op (o : op) : Prop :=
    match o with
    | OpUpdate a h w => ok_event A okh okw (Event a h w)
    | OpPredict a h => In a A /\ okh h
    end.

  Definition op_value (evs : list event) (o : op) : R := ln (prob (evs ++ [op_event o])) - ln (prob evs).
  Fixpoint op_values (evs : list event) (ops : list op) : list R :=
    match ops with
    | [] => []
    | o :: ops' => op_value evs o :: op_values (match o with OpUpdate a h w => evs ++ [Event a h w] | _ => evs end) ops'
    end.

  (** The spec value of an event does not depend on the weight of the last event. *)
  Hypothesis Hw : okw 1.

  Lemma exec_values evs ops s : ctw_rep evs s -> Forall ok_op ops ->
    exists s', exec (ctw_update_with M fresh binary mkctx) (ctw_log_predict_with M fresh binary mkctx) s ops = Ok (s', op_values evs ops) /\
      ctw_rep (evs ++ op_events ops) s'.
  Proof.
    revert evs s; induction ops as [|o ops IH]; intros evs s Hr Hops; cbn [exec op_values op_events flat_map].
    - exists s. rewrite app_nil_r. auto.
    - inversion Hops as [|x y Ho Hops']; subst. destruct o as [a h w|a h]; cbn [do_op ok_op] in *.
      + destruct (ctw_step evs s _ Hr Ho) as (s1 & s0 & l1 & Hu & _ & Hr1 & _ & Hl1 & _).
        cbn [ev_sym ev_hist ev_wt] in Hu. rewrite Hu. cbn [bind].
        destruct (IH _ _ Hr1 Hops') as (s2 & -> & Hr2). cbn [bind].
        exists s2. split.
        * do 2 f_equal. f_equal. exact Hl1.
        * fold (op_events ops). rewrite <- app_assoc in Hr2. exact Hr2.
      + destruct Ho as [Ha Hh].
        destruct (ctw_step evs s (Event a h 1) Hr (conj Ha (conj Hh Hw))) as (s0 & s1 & l1 & _ & Hp & _ & Hr1 & Hl1 & _).
        cbn [ev_sym ev_hist ev_wt] in Hp. rewrite Hp. cbn [bind].
        destruct (IH _ _ Hr1 Hops') as (s2 & -> & Hr2). cbn [bind].
        exists s2. split.
        * do 2 f_equal. f_equal. exact Hl1.
        * exact Hr2.
  Qed.

  Lemma without_values evs ops rs ops' rs' : without ops rs ops' rs' ->
    rs = op_values evs ops -> rs' = op_values evs ops'.
  Proof.
    intros HW. revert evs; induction HW as [|o r ops rs ops' rs' HW IH|a h r ops rs ops' rs' HW IH]; intros evs H; cbn [op_values] in *.
    - reflexivity.
    - injection H as -> H. f_equal. apply IH. exact H.
    - injection H as -> H. apply IH. exact H.
  Qed.

  Lemma without_ok ops rs ops' rs' : without ops rs ops' rs' -> Forall ok_op ops -> Forall ok_op ops'.
  Proof.
    intros HW. induction HW as [|o r ops rs ops' rs' HW IH|a h r ops rs ops' rs' HW IH]; intros H; inversion H; subst; auto.
  Qed.

  Lemma ctw_predict_transparent d ops s rs ops' rs' :
    Forall ok_op ops ->
    exec (ctw_update_with M fresh binary mkctx) (ctw_log_predict_with M fresh binary mkctx) (ctw_init fresh d) ops = Ok (s, rs) ->
    without ops rs ops' rs' ->
    exists s', exec (ctw_update_with M fresh binary mkctx) (ctw_log_predict_with M fresh binary mkctx) (ctw_init fresh d) ops' = Ok (s', rs').
  Proof.
    intros Hok Hx HW. destruct (exec_values [] ops _ (ctw_rep_init d) Hok) as (s1 & H1 & _).
    rewrite Hx in H1. injection H1 as <- Hrs.
    destruct (exec_values [] ops' _ (ctw_rep_init d) (without_ok _ _ _ _ HW Hok)) as (s2 & H2 & _).
    exists s2. rewrite H2. do 2 f_equal. symmetry. eapply without_values; eauto.
  Qed.

  (** *** Normalisation *)
  Hypothesis HN : forall s h, Inv s -> okh h -> Rsum (map (fun a => pred_prob M s a h) A) = 1.

  Lemma base_norm u n evs h : Forall (ok_event A okh okw) evs -> okh h ->
    run M fresh (sel ctx u evs) = Ok (c_base n, c_blp n) ->
    Rsum (map (fun a => pred_prob M (c_base n) a h) A) = 1.
  Proof.
    intros Hev Hh Hr.
    destruct (steps_run M A okh okw Inv HS fresh (sel ctx u evs) Hfresh (sel_forall _ _ _ _ Hev)) as (s' & l' & Hr' & HI).
    rewrite Hr in Hr'. injection Hr' as <- <-. apply HN; assumption.
  Qed.

  Definition node_pred (c : list Z) (n : cnode S) (h : list Z) (a : Z) : R :=
    match node_log_predict M fresh binary c n a h with Ok (_, l, _) => exp l | Err _ => 0 end.

  Lemma node_norm d u n evs h c : Forall (ok_event A okh okw) evs -> okh h ->
    (forall a, In a A -> ok_ctx ctx K d u (Event a h 1) c) -> rep M fresh ctx K d u n evs ->
    Rsum (map (node_pred c n h) A) = 1.
  Proof.
    intros Hev Hh. revert u n c. induction d as [|d IH]; intros u n c Hc Hrep.
    - pose proof Hrep as Hrep0.
      destruct n as [base blp clp lp ch]. cbn [rep c_base c_blp c_clp c_lp c_ch] in Hrep. destruct Hrep as (Hb & Hlp & Hch).
      rewrite <- (base_norm u (CNode base blp clp lp ch) evs h Hev Hh Hb). apply Rsum_map_ext. intros a Ha.
      destruct (Hc a Ha) as (H1 & H2 & H3 & H4). destruct c; [|discriminate].
      unfold node_pred, pred_prob. cbn [node_log_predict c_base].
      destruct (m_logp M base a h); cbn [bind]; [|reflexivity]. f_equal. subst lp. lra.
    - destruct n as [base blp clp lp ch]. cbn [rep c_base c_blp c_clp c_lp c_ch] in Hrep.
      destruct Hrep as (Hb & Hlp & Hnd & Hinc & Hclp & H5 & H6).
      destruct c as [|k c].
      { assert (HA: A = [] \/ exists a, In a A).
        { clear. destruct A as [|a A']; [left; reflexivity|right; exists a; left; reflexivity]. }
        destruct HA as [HA|[a Ha]].
        - pose proof (base_norm u (CNode base blp clp lp ch) evs h Hev Hh Hb) as Hn.
          rewrite HA in *. cbn [map] in *. exact Hn.
        - destruct (Hc a Ha) as (_ & _ & Hlen & _); discriminate. }
      destruct (child_cases M fresh ctx K d u ch k evs H5 H6) as (child & made & Ech & Hrc & Hcase).
      specialize (IH (u ++ [k]) child c (fun a Ha => ok_ctx_child _ _ _ _ _ _ _ (Hc a Ha)) Hrc).
      pose proof (base_norm u (CNode base blp clp lp ch) evs h Hev Hh Hb) as Hbn. cbn [c_base] in Hbn.
      rewrite (Rsum_map_ext _ (fun a => (/ 2 * exp blp * / exp lp) * pred_prob M base a h
                                       + (/ 2 * exp clp * / exp lp) * node_pred c child h a)).
      + rewrite Rsum_plus, !Rsum_scal_l, Hbn, IH.
        assert (E: exp lp = / 2 * exp blp + / 2 * exp clp) by (rewrite Hlp; apply mix_exp).
        pose proof (exp_pos lp). rewrite !Rmult_1_r. rewrite <- Rmult_plus_distr_r, <- E. field. lra.
      + intros a Ha. specialize (Hc a Ha).
        assert (HkK: In k K) by (apply Hc; left; reflexivity).
        destruct (node_update_rep M fresh binary A okh okw Inv HS Hfresh ctx K Hkey d (u ++ [k]) child evs (Event a h 1) c Hev
                    (conj Ha (conj Hh Hw)) (ok_ctx_child _ _ _ _ _ _ _ Hc) Hrc) as (child1 & made' & _ & _ & child'' & Hcp & _).
        cbn [ev_sym ev_hist] in Hcp.
        destruct (base_step M fresh A okh okw Inv HS Hfresh ctx u (CNode base blp clp lp ch) evs (Event a h 1) Hev (conj Ha (conj Hh Hw)))
          as (b' & l & _ & Hp & _); [apply matches_true; apply Hc|exact Hb|]. cbn [c_base ev_sym ev_hist] in Hp.
        unfold node_pred, pred_prob. cbn [node_log_predict]. rewrite Hp. cbn [bind]. rewrite (Hkey k HkK). cbn [bind].
        rewrite Ech, Hcp. cbn [bind]. rewrite exp_minus, mix_exp, !exp_plus. unfold Rdiv. ring.
  Qed.

  Lemma ctw_lawful_with : lawful (CTW_model_with M fresh binary mkctx) A okh okw (fun s => exists evs, ctw_rep evs s).
  Proof.
    split; [apply ctw_steps_with|]. intros s h [evs [Hev Hrep]] Hh.
    rewrite <- (node_norm D [] (ctw_tree s) evs h (rev (mkctx h)) Hev Hh); [|..|exact Hrep].
    - apply Rsum_map_ext. intros a Ha. unfold pred_prob, node_pred. cbn [CTW_model_with m_logp].
      unfold ctw_log_predict_with. destruct (node_log_predict _ _ _ _ _ _ _) as [[[t r] made]|x]; reflexivity.
    - intros a Ha. destruct (Hctx h Hh) as [Hlen Hinc]. repeat split.
      + rewrite rev_length. exact Hlen.
      + intros x Hx. apply Hinc. apply in_rev. exact Hx.
  Qed.
End top.
