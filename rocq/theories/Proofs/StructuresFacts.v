(** Facts about the directory strings of Structures. *)
From Coq Require Import Permutation.
From Verif Require Import Proofs.DictFacts Proofs.ParamsFacts Proofs.StrFacts Proofs.ProtocolFacts Proofs.FileNamesFacts
  Proofs.PathFacts Spec.Structures.
Open Scope Z_scope.

Lemma keep_idem s : keep_allowed (keep_allowed s) = keep_allowed s.
Proof. apply keep_id, keep_safe. Qed.

Lemma field_text_iff v t : field_text v = Ok t <-> value_text v t.
Proof.
  unfold field_text, value_text. destruct v as [|b|n|s|s|l|d].
  all: try (split; [|intros (u & E1 & E2); rewrite E1; exact E2]).
  all: try (intros E; match type of E with (do t <- ?x; _) = _ => destruct x as [u|] eqn:Eu; [exists u; split; [reflexivity|exact E]|discriminate] end).
  (* strings *)
  cbn [bind clean_string]. split.
  - intros E. exists (keep_allowed s). split; [reflexivity|]. rewrite keep_idem. exact E.
  - intros (u & E1 & E2). injection E1 as <-. rewrite keep_idem in E2. exact E2.
Qed.

Lemma value_text_fun v t u : value_text v t -> value_text v u -> t = u.
Proof. intros H1 H2. apply field_text_iff in H1, H2. congruence. Qed.

Lemma value_text_safe v t : value_text v t -> Forall safe t.
Proof. intros (u & _ & E). cbn in E. injection E as <-. apply keep_safe. Qed.

Lemma in_join c sep w l : In w l -> In c w -> In c (join sep l).
Proof.
  intros Hw Hc. induction l as [|x l IH]; [destruct Hw|]. destruct l as [|y l].
  - destruct Hw as [->|[]]. exact Hc.
  - rewrite join_cons by discriminate. rewrite !in_app_iff. destruct Hw as [->|Hw]; [now left|right; right; auto].
Qed.

Lemma ident_no c n : ident n -> c = slash \/ c = dash -> ~ In c n.
Proof.
  intros [_ HF] Hc Hin. rewrite Forall_forall in HF. specialize (HF _ Hin).
  unfold slash, dash in Hc. lia.
Qed.
Lemma safe_no_slash t : Forall safe t -> ~ In slash t.
Proof. intros HF Hin. rewrite Forall_forall in HF. specialize (HF _ Hin). unfold safe, slash in HF. lia. Qed.

Lemma NoDup_app_parts {A} (l1 l2 : list A) : NoDup l1 -> NoDup l2 -> (forall x, In x l1 -> ~ In x l2) -> NoDup (l1 ++ l2).
Proof.
  induction 1 as [|x l N _ IH]; intros H2 HD; [exact H2|]. cbn. constructor.
  - rewrite in_app_iff. intros [H|H]; [contradiction|]. apply (HD x); [now left|exact H].
  - apply IH; [exact H2|]. intros y Hy. apply HD. now right.
Qed.
Lemma NoDup_map_names {A B} (f : A -> B) l : NoDup l -> (forall x y, In x l -> In y l -> f x = f y -> x = y) -> NoDup (map f l).
Proof.
  induction 1 as [|x l N _ IH]; intros HJ; cbn; constructor.
  - intros H. apply in_map_iff in H as (y & E & Hy). apply N. rewrite (HJ x y); [exact Hy|now left|now right|congruence].
  - apply IH. intros y z Hy Hz. apply HJ; now right.
Qed.

Lemma ident_ascii n : ident n -> forallb (fun c => (0 <=? c) && (c <? 128)) n = true.
Proof.
  intros [_ HF]. apply forallb_forall. intros c Hc. rewrite Forall_forall in HF. specialize (HF _ Hc). cbn beta in HF.
  apply andb_true_iff. rewrite Z.leb_le, Z.ltb_lt. lia.
Qed.
Lemma safe_ascii n : Forall safe n -> forallb (fun c => (0 <=? c) && (c <? 128)) n = true.
Proof.
  intros HF. apply forallb_forall. intros c Hc. rewrite Forall_forall in HF. specialize (HF _ Hc). unfold safe in HF.
  apply andb_true_iff. rewrite Z.leb_le, Z.ltb_lt. lia.
Qed.

Definition np_field (f : field) : bool := negb (f_positional f) && negb (f_keyword f) && negb (f_transient f).
Lemma np_nameless f : np_field f = true <-> nameless f.
Proof.
  unfold np_field, nameless, shown. rewrite !andb_true_iff, !negb_true_iff. tauto.
Qed.

Section class.
  Variable fs : list field.
  Hypothesis HC : class_fit fs.

  Lemma fs_nodup : NoDup fs.
  Proof. apply (NoDup_map_inv f_name), (co_names _ HC). Qed.

  Lemma name_inj f g : In f fs -> In g fs -> f_name f = f_name g -> f = g.
  Proof.
    intros Hf Hg E. pose proof (co_names _ HC) as HN. revert Hf Hg HN. clear -E.
    induction fs as [|a l IH]; [intros []|]. intros Hf Hg HN. cbn in HN. inversion HN as [|? ? N1 N2]; subst.
    destruct Hf as [->|Hf], Hg as [Hg|Hg].
    - exact Hg.
    - exfalso. apply N1. rewrite E. now apply in_map.
    - subst. exfalso. apply N1. rewrite <- E. now apply in_map.
    - now apply IH.
  Qed.

  Lemma np_cases : filter np_field fs = [] \/ exists f, filter np_field fs = [f] /\ In f fs /\ nameless f.
  Proof.
    destruct (filter np_field fs) as [|f [|g l]] eqn:E; [now left| |].
    - right. exists f. assert (H : In f (filter np_field fs)) by (rewrite E; now left).
      apply filter_In in H as [H1 H2]. apply np_nameless in H2. tauto.
    - exfalso. assert (Hf : In f (filter np_field fs)) by (rewrite E; now left).
      assert (Hg : In g (filter np_field fs)) by (rewrite E; right; now left).
      apply filter_In in Hf as [Hf1 Hf2], Hg as [Hg1 Hg2]. apply np_nameless in Hf2, Hg2.
      assert (f = g) by now apply (co_one _ HC). subst g.
      pose proof (NoDup_filter np_field fs_nodup) as HN. rewrite E in HN. inversion HN as [|? ? N _]; subst.
      apply N. now left.
  Qed.

  Lemma has_npnk_ok : has_npnk fs = Ok (match filter np_field fs with f :: _ => Some (f_name f) | [] => None end).
  Proof.
    unfold has_npnk. fold np_field. destruct np_cases as [E|(f & E & _)]; rewrite E; reflexivity.
  Qed.
End class.

Section written.
  Variable literal_eval : pystr -> option pval.
  Variable uninumeric : pystr -> bool.
  Variable fs : list field.
  Variable inst : attrs.
  Hypothesis HC : class_fit fs.
  Hypothesis HI : inst_ok literal_eval uninumeric fs inst.

  Definition isset (f : field) : bool := match get_attr inst (f_name f) with Some _ => true | None => false end.
  Definition tx (f : field) : pystr :=
    match get_attr inst (f_name f) with
    | Some v => match field_text v with Ok t => t | Err _ => [] end
    | None => []
    end.
  Definition comp (f : field) : pystr := if f_keyword f then f_name f ++ [dash] ++ tx f else tx f.

  Lemma tx_spec f v : In f fs -> shown f -> get_attr inst (f_name f) = Some v ->
    value_text v (tx f) /\ text_ok literal_eval uninumeric f (tx f) /\ Forall safe (tx f).
  Proof.
    intros Hf Hs E. destruct (io_text _ _ _ _ HI f v Hf Hs E) as (t & T1 & T2).
    assert (Et : tx f = t). { unfold tx. rewrite E. apply field_text_iff in T1. now rewrite T1. }
    rewrite Et. split; [exact T1|]. split; [exact T2|]. now apply value_text_safe in T1.
  Qed.
  Lemma tx_ok f : In f fs -> shown f -> isset f = true ->
    text_ok literal_eval uninumeric f (tx f) /\ Forall safe (tx f).
  Proof.
    intros Hf Hs E. unfold isset in E. destruct (get_attr inst (f_name f)) as [v|] eqn:Ev; [|discriminate].
    now destruct (tx_spec f v Hf Hs Ev) as (_ & H).
  Qed.
  Lemma stringify_ok f v : In f fs -> shown f -> get_attr inst (f_name f) = Some v -> stringify f v false = Ok (comp f).
  Proof.
    intros Hf Hs E. destruct (tx_spec f v Hf Hs E) as (T & _). apply field_text_iff in T.
    unfold stringify. rewrite T. cbn [bind]. unfold comp. destruct (f_keyword f); reflexivity.
  Qed.
  Lemma comp_no_slash f : In f fs -> shown f -> isset f = true -> ~ In slash (comp f).
  Proof.
    intros Hf Hs E. destruct (tx_ok f Hf Hs E) as [_ HS]. unfold comp.
    pose proof (safe_no_slash _ HS) as N. destruct (f_keyword f); [|exact N].
    rewrite !in_app_iff. cbn. intros [H|[[H|[]]|H]]; [|unfold dash, slash in H; lia|contradiction].
    revert H. apply ident_no; [now apply (co_ident _ HC)|now left].
  Qed.

  Definition pos_field (f : field) : bool := negb (f_transient f) && f_positional f.
  Definition key_field (f : field) : bool := negb (f_transient f) && negb (f_positional f) && f_keyword f && isset f.

  Lemma pos_set f : In f fs -> pos_field f = true -> isset f = true.
  Proof.
    unfold pos_field. rewrite andb_true_iff, negb_true_iff. intros Hf [H1 H2].
    pose proof (io_pos _ _ _ _ HI f Hf H1 H2). unfold isset. now destruct (get_attr inst (f_name f)).
  Qed.
  Lemma np_set f : In f fs -> np_field f = true -> isset f = true.
  Proof.
    intros Hf H. apply np_nameless in H.
    pose proof (io_npnk _ _ _ _ HI f Hf H). unfold isset. now destruct (get_attr inst (f_name f)).
  Qed.

  Lemma pos_loop_ok : forall l, incl l fs -> pos_loop inst l = Ok (map comp (filter pos_field l)).
  Proof.
    induction l as [|f l IH]; intros Hl; [reflexivity|]. cbn [pos_loop filter].
    assert (Hf : In f fs) by (apply Hl; now left).
    assert (IH' := IH (fun x H => Hl x (or_intror H))). clear IH.
    destruct (pos_field f) eqn:Ep.
    - pose proof (pos_set f Hf Ep) as Es. unfold pos_field in Ep. apply andb_true_iff in Ep as [E1 E2].
      apply negb_true_iff in E1. rewrite E1, E2. cbn [orb negb]. unfold isset in Es.
      destruct (get_attr inst (f_name f)) as [v|] eqn:Ev; [|discriminate].
      rewrite (stringify_ok f v Hf E1 Ev). cbn [bind]. rewrite IH'. reflexivity.
    - replace (f_transient f || negb (f_positional f)) with true; [exact IH'|].
      unfold pos_field in Ep. destruct (f_transient f), (f_positional f); cbn in *; congruence.
  Qed.

  Lemma nonpos_loop_ok : forall l np args, incl l fs ->
    match filter np_field l with
    | [] => True
    | f :: r => r = [] /\ np = None
    end ->
    nonpos_loop inst l np args =
    Ok (match filter np_field l with f :: _ => Some (comp f) | [] => np end, args ++ map comp (filter key_field l)).
  Proof.
    induction l as [|f l IH]; intros np args Hl Hn; cbn [nonpos_loop filter]; [now rewrite app_nil_r|].
    assert (Hf : In f fs) by (apply Hl; now left).
    assert (Hl' : incl l fs) by (intros x H; apply Hl; now right).
    destruct (f_transient f) eqn:E1.
    { assert (E : key_field f = false /\ np_field f = false).
      { unfold key_field, np_field. rewrite E1. cbn. split; [reflexivity|]. now rewrite andb_false_r. }
      destruct E as [Ek En]. cbn [filter] in Hn. rewrite Ek. rewrite En in Hn |- *. cbn [orb]. now apply IH. }
    destruct (f_positional f) eqn:E2.
    { assert (E : key_field f = false /\ np_field f = false).
      { unfold key_field, np_field. rewrite E1, E2. cbn. tauto. }
      destruct E as [Ek En]. cbn [filter] in Hn. rewrite Ek. rewrite En in Hn |- *. cbn [orb]. now apply IH. }
    cbn [orb]. destruct (f_keyword f) eqn:E3.
    - assert (En : np_field f = false) by (unfold np_field; now rewrite E2, E3).
      cbn [filter] in Hn. rewrite En in Hn |- *.
      assert (Ek : key_field f = isset f) by (unfold key_field; now rewrite E1, E2, E3). rewrite Ek. unfold isset.
      destruct (get_attr inst (f_name f)) as [v|] eqn:Ev.
      + rewrite (stringify_ok f v Hf E1 Ev). cbn [bind]. rewrite IH by assumption. cbn [map].
        now rewrite <- app_assoc.
      + destruct (f_required f) eqn:Er; [exfalso; now apply (io_req _ _ _ _ HI f Hf E1 Er)|]. now apply IH.
    - assert (En : np_field f = true) by (unfold np_field; now rewrite E1, E2, E3).
      assert (Ek : key_field f = false) by (unfold key_field; now rewrite E1, E2, E3).
      cbn [filter] in Hn. rewrite En in Hn |- *. rewrite Ek. destruct Hn as [Hr ->].
      pose proof (np_set f Hf En) as Es. unfold isset in Es.
      destruct (get_attr inst (f_name f)) as [v|] eqn:Ev; [|discriminate].
      rewrite (stringify_ok f v Hf E1 Ev). cbn [bind]. rewrite IH; [|assumption|rewrite Hr; exact I]. now rewrite Hr.
  Qed.

  (** the fields at the end, in the order of the text *)
  Lemma nonpos_string : exists ks, Permutation ks (filter key_field fs) /\
    get_nonpos_string inst fs = Ok (join [underscore] (map comp (filter np_field fs ++ ks))).
  Proof.
    assert (HP : Permutation (sort strle (map comp (filter key_field fs))) (map comp (filter key_field fs)))
      by apply Permutation_sym, sort_perm.
    apply Permutation_map_inv in HP as (ks & E & P). exists ks. split; [now apply Permutation_sym|].
    unfold get_nonpos_string. rewrite nonpos_loop_ok.
    - cbn [bind app]. rewrite E. destruct (np_cases fs HC) as [En|(f & En & _)]; rewrite En; reflexivity.
    - intros x H. exact H.
    - destruct (np_cases fs HC) as [En|(f & En & _)]; rewrite En; [exact I|split; reflexivity].
  Qed.

  (** the last component of the directory string, if any *)
  Definition end_comps (ends : list field) : list pystr :=
    match ends with [] => [] | _ => [join [underscore] (map comp ends)] end.
  Definition has_end : Prop := exists f, In f fs /\ shown f /\ (f_keyword f = true \/ f_positional f = false).

  Section ends.
    Variable ks : list field.
    Hypothesis HK : Permutation ks (filter key_field fs).
    Notation ends := (filter np_field fs ++ ks).
    Notation kstring := (join [underscore] (map comp ends)).

    Lemma in_ks f : In f ks -> In f fs /\ shown f /\ f_positional f = false /\ f_keyword f = true /\ isset f = true.
    Proof.
      intros H. apply (Permutation_in _ HK) in H. apply filter_In in H as [H1 H2].
      unfold key_field in H2. rewrite !andb_true_iff, !negb_true_iff in H2. unfold shown. tauto.
    Qed.
    Lemma in_ends f : In f ends <-> In f fs /\ shown f /\ f_positional f = false /\ isset f = true.
    Proof.
      rewrite in_app_iff. split.
      - intros [H|H].
        + apply filter_In in H as [H1 H2]. pose proof (np_set f H1 H2). apply np_nameless in H2 as (H3 & H4 & _). tauto.
        + destruct (in_ks f H) as (? & ? & ? & ? & ?). tauto.
      - intros (H1 & H2 & H3 & H4). destruct (f_keyword f) eqn:Ek.
        + right. apply (Permutation_in _ (Permutation_sym HK)). apply filter_In. split; [exact H1|].
          unfold key_field. now rewrite H2, H3, Ek, H4.
        + left. apply filter_In. split; [exact H1|]. apply np_nameless. split; [exact H2|tauto].
    Qed.
    Lemma ends_names : NoDup (map f_name ends).
    Proof.
      assert (HN : NoDup ends).
      { assert (H1 := NoDup_filter np_field (fs_nodup fs HC)).
        assert (H2 : NoDup ks).
        { eapply Permutation_NoDup; [apply Permutation_sym, HK|]. apply NoDup_filter, (fs_nodup fs HC). }
        apply NoDup_app_parts; [exact H1|exact H2|].
        intros f Hf Hk. apply filter_In in Hf as [_ Hf]. apply in_ks in Hk as (_ & _ & _ & Hk & _).
        apply np_nameless in Hf as (_ & _ & Hf). congruence. }
      apply NoDup_map_names; [exact HN|]. intros f g Hf Hg. apply in_ends in Hf, Hg. apply (name_inj fs HC); tauto.
    Qed.
    Lemma ends_ne : has_end -> ends <> [] /\ kstring <> [] /\ plain kstring.
    Proof.
      intros H. destruct (io_last _ _ _ _ HI H) as (f & v & t & H1 & H2 & H3 & H4 & H5 & H6).
      assert (Hin : In f ends). { apply in_ends. unfold isset. rewrite H4. tauto. }
      assert (Ene : ends <> []) by (intros E; rewrite E in Hin; exact Hin).
      assert (Et : tx f = t).
      { destruct (tx_spec f v H1 H2 H4) as (T & _). eapply value_text_fun; eassumption. }
      assert (Kne : kstring <> []).
      { assert (exists c, In c (comp f)) as (c & Hc).
        { unfold comp. rewrite Et. destruct (f_keyword f) eqn:Ek.
          - exists dash. rewrite !in_app_iff. right. left. now left.
          - destruct H6 as [H6|H6]; [discriminate|]. destruct t as [|c t]; [contradiction|]. exists c. now left. }
        intros E. assert (X : In c kstring) by (eapply in_join; [apply in_map, Hin|exact Hc]). rewrite E in X. exact X. }
      split; [exact Ene|]. split; [exact Kne|]. split; [exact Kne|]. split.
      - assert (HF : Forall (fun c => c <> slash) kstring).
        { apply join_forall; [repeat constructor; unfold underscore, slash; lia|].
          apply Forall_forall. intros w Hw. apply in_map_iff in Hw as (g & <- & Hg). apply in_ends in Hg as (G1 & G2 & G3 & G4).
          pose proof (comp_no_slash g G1 G2 G4) as N. apply Forall_forall. intros c Hc ->. contradiction. }
        intros X. rewrite Forall_forall in HF. now apply (HF _ X).
      - assert (Kc : ks = [] \/ exists g l, ks = g :: l) by (clear; destruct ks; eauto).
        destruct Kc as [Eks|(g & l & Eks)].
        + destruct (np_cases fs HC) as [En|(g & En & G1 & G2)].
          { exfalso. apply Ene. now rewrite En, Eks. }
          rewrite En, Eks. cbn [app map join]. destruct G2 as (G2 & G3 & G4). unfold comp. rewrite G4.
          assert (Eg : isset g = true) by (apply np_set; [exact G1|]; apply np_nameless; split; [exact G2|tauto]).
          destruct (tx_ok g G1 G2 Eg) as [T _]. unfold text_ok in T. rewrite G3 in T. tauto.
        + assert (X : In dash kstring).
          { apply (in_join dash [underscore] (comp g));
              [apply in_map; rewrite Eks; apply in_app_iff; right; left; reflexivity|].
            assert (Hg : f_keyword g = true) by (apply in_ks; rewrite Eks; now left).
            unfold comp. rewrite Hg, !in_app_iff. right. left. now left. }
          split; intros E; rewrite E in X; cbn in X; unfold dash, dot in X; lia.
    Qed.
    Lemma ends_none : ~ has_end -> ends = [].
    Proof.
      intros N. destruct ends as [|f l] eqn:E; [reflexivity|]. exfalso. apply N. exists f.
      assert (H : In f ends) by (rewrite E; now left). apply in_ends in H. tauto.
    Qed.

    Lemma pos_plain : Forall plain (map comp (filter pos_field fs)).
    Proof.
      apply Forall_forall. intros w Hw. apply in_map_iff in Hw as (f & <- & Hf). apply filter_In in Hf as [Hf Hp].
      pose proof (pos_set f Hf Hp) as Es. unfold pos_field in Hp. apply andb_true_iff in Hp as [H1 H2].
      apply negb_true_iff in H1. pose proof (comp_no_slash f Hf H1 Es) as N.
      destruct (tx_ok f Hf H1 Es) as [T _]. unfold text_ok in T. rewrite H2 in T. unfold comp in *.
      destruct (f_keyword f); [|exact T].
      assert (X : In dash (f_name f ++ [dash] ++ tx f)) by (rewrite !in_app_iff; right; left; now left).
      split; [intros E; rewrite E in X; exact X|]. split; [exact N|].
      split; intros E; rewrite E in X; cbn in X; unfold dash, dot in X; lia.
    Qed.

    (** the components of the directory string *)
    Definition comps : list pystr :=
      map comp (filter pos_field fs) ++ match ends with [] => [] | _ => [kstring] end.

    Lemma comps_plain : Forall plain comps.
    Proof.
      destruct (ends) as [|f l] eqn:E; unfold comps; rewrite E; [rewrite app_nil_r; apply pos_plain|].
      assert (H : has_end).
      { exists f. assert (H : In f ends) by (rewrite E; now left). apply in_ends in H. tauto. }
      destruct (ends_ne H) as (_ & _ & Hp). rewrite E in Hp. apply Forall_app. split; [apply pos_plain|now constructor].
    Qed.
    Lemma comps_ok : class_ok fs -> Forall plain comps /\ comps <> [].
    Proof.
      intros HC2.
      destruct (ends) as [|f l] eqn:E; unfold comps; rewrite E.
      - rewrite app_nil_r. split; [apply pos_plain|].
        destruct (co_shown _ HC2) as (g & G1 & G2). destruct (f_positional g) eqn:Ep.
        + intros X. apply map_eq_nil in X. assert (Y : In g (filter pos_field fs)).
          { apply filter_In. split; [exact G1|]. unfold pos_field. now rewrite G2, Ep. }
          rewrite X in Y. exact Y.
        + exfalso. assert (H : has_end) by (exists g; tauto). now destruct (ends_ne H) as (X & _).
      - assert (H : has_end).
        { exists f. assert (H : In f ends) by (rewrite E; now left). apply in_ends in H. tauto. }
        destruct (ends_ne H) as (_ & _ & Hp). rewrite E in Hp.
        split; [apply Forall_app; split; [apply pos_plain|now constructor]|].
        intros X. apply app_eq_nil in X as [_ X]. discriminate.
    Qed.

    Lemma dir_string_ok : class_ok fs -> get_nonpos_string inst fs = Ok kstring -> get_dir_string fs inst = Ok (path_text false comps).
    Proof.
      intros HC2 EK. unfold get_dir_string. rewrite pos_loop_ok by (intros x H; exact H). cbn [bind]. rewrite EK. cbn [bind].
      assert (E : (match kstring with [] => map comp (filter pos_field fs) | _ => map comp (filter pos_field fs) ++ [kstring] end) = comps).
      { unfold comps. destruct ends as [|f l] eqn:E; [cbn; now rewrite app_nil_r|].
        assert (H : has_end).
        { exists f. assert (H : In f ends) by (rewrite E; now left). apply in_ends in H. tauto. }
        destruct (ends_ne H) as (_ & K & _). rewrite E in K. destruct (join [underscore] (map comp (f :: l))); [contradiction|reflexivity]. }
      rewrite E. destruct (comps_ok HC2) as [C1 C2]. destruct comps as [|c cs]; [contradiction|].
      now rewrite join_comps.
    Qed.
  End ends.
End written.
