From Coq Require Import Lra.
From Verif Require Import Model.CTW Spec.CTWSpec.
From Verif Require Import Proofs.RealFacts Proofs.PyFacts Proofs.ProbFacts.
Open Scope R_scope.

Lemma firstn_snoc {A} (c : list A) i k c' : skipn i c = k :: c' -> firstn (i + 1) c = firstn i c ++ [k].
Proof.
  revert c; induction i as [|i IH]; intros [|x c] H; cbn in *; try discriminate.
  - injection H as -> ->. reflexivity.
  - rewrite (IH c H). reflexivity.
Qed.

Lemma skipn_succ {A} (c : list A) i k c' : skipn i c = k :: c' -> skipn (i + 1) c = c'.
Proof.
  revert c; induction i as [|i IH]; intros [|x c] H; cbn in *; try discriminate.
  - injection H as -> ->. reflexivity.
  - exact (IH c H).
Qed.

Lemma NoDup_app_intro_local {A} (l1 l2 : list A) : NoDup l1 -> NoDup l2 ->
  (forall x, In x l1 -> ~ In x l2) -> NoDup (l1 ++ l2).
Proof.
  induction l1 as [|x l1 IH]; intros H1 H2 Hd; cbn [app]; [exact H2|].
  inversion H1; subst. constructor.
  - intros Hin. apply in_app_or in Hin as [Hin|Hin]; [contradiction|]. apply (Hd x); [left; reflexivity|exact Hin].
  - apply IH; auto. intros y Hy. apply Hd. right; exact Hy.
Qed.

Lemma app_last_inj {A} (u : list A) x y : u ++ [x] = u ++ [y] -> x = y.
Proof. intros H. apply app_inv_head in H. congruence. Qed.

Section sel.
  Variable ctx : list Z -> list Z.

  Lemma matches_true u e : matches ctx u e = true <-> firstn (length u) (ctx (ev_hist e)) = u.
  Proof. unfold matches. destruct (list_eq_dec _ _ _); split; congruence. Qed.

  Lemma sel_app u e1 e2 : sel ctx u (e1 ++ e2) = sel ctx u e1 ++ sel ctx u e2.
  Proof. apply filter_app. Qed.

  Lemma sel_snoc_hit u evs e : matches ctx u e = true -> sel ctx u (evs ++ [e]) = sel ctx u evs ++ [e].
  Proof. intros H. rewrite sel_app. cbn [sel filter]. rewrite H. reflexivity. Qed.

  Lemma sel_snoc_miss u evs e : matches ctx u e = false -> sel ctx u (evs ++ [e]) = sel ctx u evs.
  Proof. intros H. rewrite sel_app. cbn [sel filter]. rewrite H. apply app_nil_r. Qed.

  Lemma matches_prefix u v e : matches ctx (u ++ v) e = true -> matches ctx u e = true.
  Proof.
    rewrite !matches_true. intros H. apply (f_equal (firstn (length u))) in H.
    rewrite firstn_firstn, firstn_app, Nat.sub_diag, firstn_O, app_nil_r, firstn_all in H.
    rewrite app_length, Nat.min_l in H by lia. exact H.
  Qed.

  Lemma sel_nil_ext u v evs : sel ctx u evs = [] -> sel ctx (u ++ v) evs = [].
  Proof.
    intros H. unfold sel in *. induction evs as [|e evs IH]; [reflexivity|]. cbn [filter] in *.
    destruct (matches ctx u e) eqn:E; [discriminate|].
    destruct (matches ctx (u ++ v) e) eqn:E2; [apply matches_prefix in E2; congruence|]. auto.
  Qed.

  Lemma sel_forall (P : event -> Prop) u evs : Forall P evs -> Forall P (sel ctx u evs).
  Proof. intros H. apply Forall_forall. intros e He. apply filter_In in He as [He _]. rewrite Forall_forall in H. auto. Qed.
End sel.

Section ctw.
  Context {S : Type} (M : model S) (fresh : S) (binary : bool).
  Context (A : list Z) (okh : list Z -> Prop) (okw : R -> Prop) (Inv : S -> Prop).
  Hypothesis HS : steps M A okh okw Inv.
  Hypothesis Hfresh : Inv fresh.
  Variable ctx : list Z -> list Z.
  Variable K : list Z.
  Hypothesis HK : NoDup K.
  Hypothesis Hkey : forall k, In k K -> child_key binary k = Ok k.

  Notation sel := (sel ctx).
  Notation matches := (matches ctx).

  (** Node [n], labelled [u], with [d] levels below it, has seen exactly the events of [evs]
      whose context starts with [u]. *)
  Fixpoint rep (d : nat) (u : list Z) (n : cnode S) (evs : list event) : Prop :=
    run M fresh (sel u evs) = Ok (c_base n, c_blp n) /\
    match d with
    | O => c_lp n = c_blp n /\ c_ch n = []
    | Datatypes.S d' =>
        c_lp n = log_0_5 + logsumexp2 (c_blp n) (c_clp n) /\
        NoDup (map fst (c_ch n)) /\ incl (map fst (c_ch n)) K /\
        c_clp n = Rsum (map (fun kn => c_lp (snd kn)) (c_ch n)) /\
        (forall k ch, In (k, ch) (c_ch n) -> rep d' (u ++ [k]) ch evs) /\
        (forall k, ~ In k (map fst (c_ch n)) -> sel (u ++ [k]) evs = [])
    end.

  Lemma mix_zero : log_0_5 + logsumexp2 0 0 = 0.
  Proof. apply exp_inj. rewrite mix_exp, exp_0. lra. Qed.

  Lemma rep_fresh d u evs : sel u evs = [] -> rep d u (new_node fresh) evs.
  Proof.
    intros H. destruct d as [|d]; cbn [rep new_node c_base c_blp c_lp c_clp c_ch]; rewrite H; cbn [run].
    - auto.
    - split; [reflexivity|]. split; [symmetry; apply mix_zero|]. split; [constructor|].
      split; [intros k []|]. split; [reflexivity|]. split; [intros k ch []|].
      intros k _. apply sel_nil_ext. exact H.
  Qed.

  Lemma rep_ext d u n evs evs' : (forall v, sel (u ++ v) evs = sel (u ++ v) evs') ->
    rep d u n evs -> rep d u n evs'.
  Proof.
    revert u n; induction d as [|d IH]; intros u n He; cbn [rep]; intros (Hb & H).
    - split; [|exact H]. specialize (He []). rewrite app_nil_r in He. rewrite <- He. exact Hb.
    - destruct H as (H1 & H2 & H3 & H4 & H5 & H6). split; [|repeat split; auto].
      + specialize (He []). rewrite app_nil_r in He. rewrite <- He. exact Hb.
      + intros k ch Hin. apply IH; [|apply H5; exact Hin]. intros v. rewrite <- app_assoc. apply He.
      + intros k Hk. rewrite <- He. apply H6. exact Hk.
  Qed.

  (** Replacing one child changes the sum of the children's values accordingly. *)
  Lemma clp_set (ch : list (Z * cnode S)) k old new : NoDup (map fst ch) ->
    (dict_get ch k = Some old \/ (dict_get ch k = None /\ c_lp old = 0)) ->
    Rsum (map (fun kn => c_lp (snd kn)) (dict_set ch k new)) =
    Rsum (map (fun kn => c_lp (snd kn)) ch) + (c_lp new - c_lp old).
  Proof.
    intros Hnd [Hg|[Hg Hz]].
    - destruct (dict_set_split ch k new Hnd old Hg) as (d1 & d2 & -> & -> & _).
      rewrite !map_app, !Rsum_app. cbn [map]. rewrite !Rsum_cons. cbn [snd]. lra.
    - apply dict_get_none in Hg. rewrite (dict_set_keys_new ch k new Hg), map_app, Rsum_app.
      cbn [map]. rewrite Rsum_single. cbn [snd]. lra.
  Qed.

  Definition ok_ctx (d : nat) (u : list Z) (e : event) (c : list Z) : Prop :=
    firstn (length u) (ctx (ev_hist e)) = u /\ skipn (length u) (ctx (ev_hist e)) = c /\
    length c = d /\ incl c K.

  Lemma ok_ctx_child d u e k c : ok_ctx (Datatypes.S d) u e (k :: c) -> ok_ctx d (u ++ [k]) e c.
  Proof using.
    intros (H1 & H2 & H3 & H4). unfold ok_ctx. rewrite app_length. cbn [length].
    repeat split.
    - rewrite (firstn_snoc _ _ _ _ H2), H1. reflexivity.
    - apply (skipn_succ _ _ _ _ H2).
    - injection H3 as H3. exact H3.
    - intros x Hx. apply H4. right; exact Hx.
  Qed.

  Lemma ok_ctx_other d u e k c k' v : ok_ctx (Datatypes.S d) u e (k :: c) -> k' <> k ->
    matches ((u ++ [k']) ++ v) e = false.
  Proof using.
    intros H Hne. destruct (matches ((u ++ [k']) ++ v) e) eqn:E; [|reflexivity]. exfalso.
    apply matches_prefix, matches_true in E. apply ok_ctx_child in H as (H1 & _).
    rewrite app_length in *. cbn [length] in *. rewrite H1 in E. apply app_last_inj in E. congruence.
  Qed.

  Definition in_dict_set {V} (d : dict V) k v : In (k, v) (dict_set d k v).
  Proof. apply dict_get_in. apply dict_get_set_same. Qed.

  Lemma rep_ch_set d u (ch : list (Z * cnode S)) k new evs evs' :
    NoDup (map fst ch) -> incl (map fst ch) K -> In k K ->
    (forall k' c, In (k', c) ch -> rep d (u ++ [k']) c evs) ->
    (forall k', ~ In k' (map fst ch) -> sel (u ++ [k']) evs = []) ->
    rep d (u ++ [k]) new evs' ->
    (forall k' v, k' <> k -> sel ((u ++ [k']) ++ v) evs = sel ((u ++ [k']) ++ v) evs') ->
    NoDup (map fst (dict_set ch k new)) /\ incl (map fst (dict_set ch k new)) K /\
    (forall k' c, In (k', c) (dict_set ch k new) -> rep d (u ++ [k']) c evs') /\
    (forall k', ~ In k' (map fst (dict_set ch k new)) -> sel (u ++ [k']) evs' = []).
  Proof.
    intros Hnd Hinc HkK Hrep Hnone Hnew Hsame.
    assert (Hnd': NoDup (map fst (dict_set ch k new))) by (apply dict_set_nodup; exact Hnd).
    repeat split; [exact Hnd'| | |].
    - intros x Hx. apply dict_get_key in Hx as [v Hv].
      destruct (Z.eq_dec x k) as [-> |Hne]; [exact HkK|].
      rewrite dict_get_set_other in Hv by exact Hne. apply Hinc. eapply dict_get_some_key; exact Hv.
    - intros k' c Hin. apply dict_in_get in Hin; [|exact Hnd'].
      destruct (Z.eq_dec k' k) as [-> |Hne].
      + rewrite dict_get_set_same in Hin. injection Hin as <-. exact Hnew.
      + rewrite dict_get_set_other in Hin by exact Hne. apply dict_get_in in Hin.
        eapply rep_ext; [|apply Hrep; exact Hin]. intros v. apply Hsame. exact Hne.
    - intros k' Hk'. assert (Hne: k' <> k).
      { intros ->. apply Hk'. eapply dict_get_some_key. apply dict_get_set_same. }
      specialize (Hsame k' [] Hne). rewrite !app_nil_r in Hsame. rewrite <- Hsame. apply Hnone.
      intros Hin. apply dict_get_key in Hin as [v Hv]. apply Hk'. apply (dict_get_some_key _ k' v).
      rewrite dict_get_set_other by exact Hne. exact Hv.
  Qed.

  Lemma base_step u n evs e : Forall (ok_event A okh okw) evs -> ok_event A okh okw e ->
    matches u e = true -> run M fresh (sel u evs) = Ok (c_base n, c_blp n) ->
    exists b' l, m_update M (c_base n) (ev_sym e) (ev_hist e) (ev_wt e) = Ok (b', l) /\
      m_logp M (c_base n) (ev_sym e) (ev_hist e) = Ok l /\
      run M fresh (sel u (evs ++ [e])) = Ok (b', c_blp n + l).
  Proof.
    intros Hev (Ha & Hh & Hw) Hm Hr.
    destruct (steps_run M A okh okw Inv HS fresh (sel u evs) Hfresh (sel_forall _ _ _ _ Hev)) as (s' & l' & Hr' & HI).
    rewrite Hr in Hr'. injection Hr' as <- <-.
    destruct (HS _ _ _ _ HI Ha Hh Hw) as (b' & l & Hu & Hp & _).
    exists b', l. repeat split; auto. rewrite sel_snoc_hit by exact Hm.
    eapply run_snoc; eauto.
  Qed.

  (** The child a context symbol selects: stored or new. *)
  Lemma child_cases d u (ch : list (Z * cnode S)) k evs :
    (forall k' c, In (k', c) ch -> rep d (u ++ [k']) c evs) ->
    (forall k', ~ In k' (map fst ch) -> sel (u ++ [k']) evs = []) ->
    exists child made,
      match dict_get ch k with Some x => (x, 0%nat) | None => (new_node fresh, 1%nat) end = (child, made) /\
      rep d (u ++ [k]) child evs /\
      (dict_get ch k = Some child \/ (dict_get ch k = None /\ c_lp child = 0)).
  Proof.
    intros H5 H6. destruct (dict_get ch k) as [x|] eqn:E.
    - exists x, 0%nat. repeat split; auto. apply H5. apply dict_get_in. exact E.
    - exists (new_node fresh), 1%nat. repeat split; auto. apply rep_fresh, H6, dict_get_none, E.
  Qed.

  Lemma node_update_rep d u n evs e c :
    Forall (ok_event A okh okw) evs -> ok_event A okh okw e -> ok_ctx d u e c -> rep d u n evs ->
    exists n' made, node_update M fresh binary c n (ev_sym e) (ev_hist e) (ev_wt e) = Ok (n', c_lp n' - c_lp n, made) /\
      rep d u n' (evs ++ [e]) /\
      exists n'', node_log_predict M fresh binary c n (ev_sym e) (ev_hist e) = Ok (n'', c_lp n' - c_lp n, made) /\
        rep d u n'' evs /\ c_lp n'' = c_lp n.
  Proof.
    intros Hev He. revert u n c. induction d as [|d IH]; intros u n c Hc Hrep.
    - destruct n as [base blp clp lp ch]. cbn [rep c_base c_blp c_clp c_lp c_ch] in Hrep. destruct Hrep as (Hb & Hlp & Hch).
      destruct Hc as (H1 & H2 & H3 & H4). destruct c; [|discriminate]. cbn [node_update node_log_predict].
      destruct (base_step u (CNode base blp clp lp ch) evs e Hev He) as (b' & l & Hu & Hp & Hr);
        [apply matches_true; exact H1|exact Hb|]. cbn [c_base c_blp] in *.
      rewrite Hu, Hp. cbn [bind]. exists (CNode b' (blp + l) clp (blp + l) ch), 0%nat. split; [reflexivity|]. split.
      + cbn [rep c_base c_blp c_clp c_lp c_ch]. auto.
      + eexists; split; [reflexivity|]. split; [|reflexivity]. cbn [rep c_base c_blp c_clp c_lp c_ch]. auto.
    - destruct n as [base blp clp lp ch]. cbn [rep c_base c_blp c_clp c_lp c_ch] in Hrep.
      destruct Hrep as (Hb & Hlp & Hnd & Hinc & Hclp & H5 & H6).
      destruct c as [|k c]; [destruct Hc as (_ & _ & Hlen & _); discriminate|].
      assert (HkK: In k K) by (apply Hc; left; reflexivity).
      destruct (base_step u (CNode base blp clp lp ch) evs e Hev He) as (b' & l & Hu & Hp & Hr);
        [apply matches_true; apply Hc|exact Hb|]. cbn [c_base c_blp] in *.
      destruct (child_cases d u ch k evs H5 H6) as (child & made & Ech & Hrc & Hcase).
      destruct (IH (u ++ [k]) child c (ok_ctx_child _ _ _ _ _ Hc) Hrc) as (child' & made' & Hcu & Hrc' & child'' & Hcp & Hrc'' & Hlpc).
      cbn [node_update node_log_predict]. rewrite Hu, Hp. cbn [bind]. rewrite (Hkey k HkK). cbn [bind].
      rewrite Ech, Hcu, Hcp. cbn [bind].
      assert (Hother: forall k' v, k' <> k -> sel ((u ++ [k']) ++ v) evs = sel ((u ++ [k']) ++ v) (evs ++ [e])).
      { intros k' v Hne. symmetry. apply sel_snoc_miss. eapply ok_ctx_other; eauto. }
      destruct (rep_ch_set d u ch k child' evs (evs ++ [e]) Hnd Hinc HkK H5 H6 Hrc' Hother) as (G1 & G2 & G3 & G4).
      destruct (rep_ch_set d u ch k child'' evs evs Hnd Hinc HkK H5 H6 Hrc'' (fun _ _ _ => eq_refl)) as (F1 & F2 & F3 & F4).
      exists (CNode b' (blp + l) (clp + (c_lp child' - c_lp child))
                (log_0_5 + logsumexp2 (blp + l) (clp + (c_lp child' - c_lp child))) (dict_set ch k child')), (made + made')%nat.
      split; [reflexivity|]. split.
      + cbn [rep c_base c_blp c_clp c_lp c_ch]. split; [exact Hr|]. split; [reflexivity|].
        split; [exact G1|]. split; [exact G2|]. split; [|split; [exact G3|exact G4]].
        rewrite (clp_set ch k child child' Hnd Hcase), Hclp. reflexivity.
      + eexists. split; [reflexivity|]. split; [|reflexivity].
        cbn [rep c_base c_blp c_clp c_lp c_ch]. split; [exact Hb|]. split; [exact Hlp|].
        split; [exact F1|]. split; [exact F2|]. split; [|split; [exact F3|exact F4]].
        rewrite (clp_set ch k child child'' Hnd Hcase), <- Hclp. lra.
  Qed.

  (** The value at a node is the weighted probability of the specification. *)
  Lemma Rprod_one {X} (l : list X) : Rprod (map (fun _ => 1) l) = 1.
  Proof. induction l as [|x l IH]; cbn [map]; rewrite ?Rprod_nil, ?Rprod_cons; [reflexivity|rewrite IH; lra]. Qed.

  Lemma ctw_prob_nil d u evs : sel u evs = [] -> ctw_prob M fresh ctx K d u evs = 1.
  Proof.
    revert u; induction d as [|d IH]; intros u H; cbn [ctw_prob]; unfold node_prob; rewrite H; cbn [seq_prob].
    - reflexivity.
    - rewrite (Rprod_map_ext _ (fun _ => 1)).
      + rewrite Rprod_one. lra.
      + intros k _. apply IH, sel_nil_ext, H.
  Qed.

  Lemma Rprod_exp l : Rprod (map exp l) = exp (Rsum l).
  Proof.
    induction l as [|x l IH]; cbn [map].
    - rewrite Rprod_nil, Rsum_nil, exp_0. reflexivity.
    - rewrite Rprod_cons, Rsum_cons, exp_plus, IH. reflexivity.
  Qed.

  Lemma rep_prob d u n evs : rep d u n evs -> exp (c_lp n) = ctw_prob M fresh ctx K d u evs.
  Proof.
    revert u n; induction d as [|d IH]; intros u n Hrep; cbn [rep ctw_prob] in *.
    - destruct Hrep as (Hb & -> & _). unfold node_prob. symmetry. apply (seq_prob_run _ _ _ _ _ Hb).
    - destruct Hrep as (Hb & -> & Hnd & Hinc & Hclp & H5 & H6).
      rewrite mix_exp. unfold node_prob. rewrite (seq_prob_run _ _ _ _ _ Hb). do 2 f_equal.
      rewrite Hclp, <- Rprod_exp, map_map.
      (* the keys present, and the remaining symbols *)
      assert (Hp: exists U, Permutation.Permutation K (map fst (c_ch n) ++ U) /\ forall k, In k U -> ~ In k (map fst (c_ch n))).
      { clear -HK Hnd Hinc. revert HK Hnd Hinc. generalize (map fst (c_ch n)) as L. intros L HK Hnd Hinc.
        exists (filter (fun k => negb (if in_dec Z.eq_dec k L then true else false)) K). split.
        - apply Permutation.NoDup_Permutation; [exact HK| |].
          + apply NoDup_app_intro_local; auto using NoDup_filter.
            intros x Hx1 Hx2. apply filter_In in Hx2 as [_ Hx2]. destruct (in_dec Z.eq_dec x L); [discriminate|auto].
          + intros x; split.
            * intros Hx. apply in_or_app. destruct (in_dec Z.eq_dec x L) as [Hi|Hn]; [left; exact Hi|right].
              apply filter_In. split; [exact Hx|]. destruct (in_dec Z.eq_dec x L); [contradiction|reflexivity].
            * intros Hx. apply in_app_or in Hx as [Hx|Hx]; [apply Hinc; exact Hx|]. apply filter_In in Hx. apply Hx.
        - intros k Hk. apply filter_In in Hk as [_ Hk]. destruct (in_dec Z.eq_dec k L); [discriminate|assumption]. }
      destruct Hp as (U & HP & HU).
      rewrite (Rprod_perm _ _ (Permutation.Permutation_map (fun k => ctw_prob M fresh ctx K d (u ++ [k]) evs) HP)).
      rewrite map_app, Rprod_app.
      rewrite (Rprod_map_ext (fun k => ctw_prob M fresh ctx K d (u ++ [k]) evs) (fun _ => 1) U).
      + rewrite Rprod_one, Rmult_1_r, map_map. apply Rprod_map_ext. intros [k ch] Hin. cbn [fst snd].
        apply IH. apply H5. exact Hin.
      + intros k Hk. apply ctw_prob_nil. apply H6, HU, Hk.
  Qed.
End ctw.
