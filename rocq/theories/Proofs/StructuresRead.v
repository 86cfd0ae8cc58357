(** Reading the directory string of a Structure. *)
From Coq Require Import Permutation.
From Verif Require Import Proofs.DictFacts Proofs.ParamsFacts Proofs.StrFacts Proofs.ProtocolFacts Proofs.FileNamesFacts
  Proofs.PathFacts Proofs.StructuresFacts Spec.Structures.
Open Scope Z_scope.

Notation get := (gd_get streq).

Lemma streq_refl s : streq s s = true. Proof. now apply streq_spec. Qed.
Lemma streq_ne s t : s <> t -> streq s t = false.
Proof. intros N. apply not_true_is_false. now rewrite streq_spec. Qed.

Lemma existsb_streq n l : existsb (streq n) l = true <-> In n l.
Proof.
  rewrite existsb_exists. split.
  - intros (x & Hx & E). apply streq_spec in E. now subst.
  - intros H. exists n. split; [exact H|apply streq_refl].
Qed.
Lemma remove_first_in x y l : NoDup l -> In y (remove_first x l) <-> In y l /\ y <> x.
Proof.
  induction 1 as [|z l N _ IH]; cbn; [tauto|]. destruct (streq z x) eqn:E.
  - apply streq_spec in E. subst z. split; [intros H; split; [now right|intros ->; contradiction]|].
    intros [[->|H] Hn]; [contradiction|exact H].
  - assert (Nz : z <> x) by (intros ->; rewrite streq_refl in E; discriminate).
    cbn. rewrite IH. split; [intros [->|[H1 H2]]; tauto|]. intros [[->|H1] H2]; tauto.
Qed.
Lemma remove_first_nodup x l : NoDup l -> NoDup (remove_first x l).
Proof.
  induction 1 as [|z l N HN IH]; cbn; [constructor|]. destruct (streq z x); [exact HN|].
  constructor; [|exact IH]. rewrite remove_first_in by exact HN. tauto.
Qed.

(** a text in one piece always evaluates *)
Lemma de_piece literal_eval uni uninumeric t : Forall safe t -> ~ In dash t -> ~ In underscore t ->
  exists r, de_string literal_eval uni uninumeric t = Ok r.
Proof.
  intros HS Hd Hu. unfold de_string. cbn [de_string_fuel]. destruct (literal_eval t); [eauto|].
  destruct (isnumeric uninumeric t) eqn:En.
  - unfold isnumeric in En. rewrite (safe_ascii _ HS) in En. destruct t as [|c t]; [discriminate|].
    rewrite int_digits; [eauto|discriminate|exact En].
  - assert (H1 : has_char underscore t = false) by (apply not_true_is_false; rewrite has_char_in; exact Hu).
    assert (H2 : has_char dash t = false) by (apply not_true_is_false; rewrite has_char_in; exact Hd).
    rewrite H1, H2. cbn [andb]. eauto.
Qed.

Section read.
  Variable literal_eval : pystr -> option pval.
  Variable uni : pystr -> option Z.
  Variable uninumeric : pystr -> bool.
  Variable pval_eq : pval -> pval -> bool.
  Notation de := (de_string literal_eval uni uninumeric).
  Variable fs : list field.
  Variable inst : attrs.
  Hypothesis HC : class_fit fs.
  Hypothesis HI : inst_ok literal_eval uninumeric fs inst.
  Notation tx := (tx inst).
  Notation comp := (comp inst).
  Notation isset := (isset inst).
  Notation pos_field := pos_field.
  Notation key_field := (key_field inst).

  (** the component of a named positional field *)
  Lemma de_named f r : In f fs -> shown f -> f_positional f = true -> f_keyword f = true -> isset f = true ->
    de (tx f) = Ok r -> de (comp f) = Ok (VList [VStr (f_name f); r]).
  Proof.
    intros Hf Hs Hp Hk He Er. destruct (tx_ok _ _ _ _ HI f Hf Hs He) as [T TS].
    unfold text_ok in T. rewrite Hp, Hk in T. destruct T as (T1 & T2 & T3 & T4 & T5 & T6).
    assert (ID := co_ident _ HC f Hf). assert (ND : ~ In dash (f_name f)) by (apply ident_no; [exact ID|now right]).
    unfold StructuresFacts.comp. rewrite Hk. revert Er. unfold de_string at 2. cbn [de_string_fuel]. rewrite T6.
    assert (En : isnumeric uninumeric (f_name f ++ [dash] ++ tx f) = false).
    { unfold isnumeric. rewrite !forallb_app, (ident_ascii _ ID), (safe_ascii _ TS). cbn [forallb andb].
      destruct (f_name f ++ [dash] ++ tx f) ; [reflexivity|].
      change (is_digit dash) with false. cbn [andb]. apply andb_false_r. }
    rewrite En.
    assert (H1 : has_char underscore (f_name f ++ [dash] ++ tx f) = false).
    { apply not_true_is_false. rewrite has_char_in, !in_app_iff. cbn. unfold dash, underscore in *.
      intros [H|[[H|[]]|H]]; [contradiction|lia|contradiction]. }
    assert (H2 : has_char dash (f_name f ++ [dash] ++ tx f) = true).
    { apply has_char_in. rewrite !in_app_iff. right. left. now left. }
    assert (H3 : (1 <? Z.of_nat (length (f_name f ++ [dash] ++ tx f))) = true).
    { apply Z.ltb_lt. rewrite !app_length. cbn [length]. destruct ID as [ID _]. destruct (f_name f); [contradiction|].
      cbn [length]. lia. }
    rewrite H1, H2, H3. cbn [andb app]. intros Er.
    rewrite split_app, (split_none dash _ ND), (split_none dash _ T1). cbn [app mapM].
    assert (HN1 : has_char underscore (f_name f) = false) by (apply not_true_is_false; rewrite has_char_in; exact T3).
    assert (HN2 : has_char dash (f_name f) = false) by (apply not_true_is_false; rewrite has_char_in; exact ND).
    cbn [de_string_fuel]. rewrite T4, T5, HN1, HN2. cbn [andb bind].
    assert (HT1 : has_char underscore (tx f) = false) by (apply not_true_is_false; rewrite has_char_in; exact T2).
    assert (HT2 : has_char dash (tx f) = false) by (apply not_true_is_false; rewrite has_char_in; exact T1).
    unfold de_string in Er. cbn [de_string_fuel] in Er. rewrite HT1, HT2 in Er |- *. cbn [andb] in Er |- *.
    destruct (literal_eval (tx f)); [now injection Er as ->|].
    destruct (isnumeric uninumeric (tx f)).
    - destruct (int_of_str uni (tx f)); [now injection Er as <-|discriminate].
    - now injection Er as <-.
  Qed.

  (** what the end of the path gives before the loop *)
  Lemma start_ok ks rooted Y : Permutation ks (filter key_field fs) -> Forall plain Y ->
    exists kw, NoDup kw /\
      (forall f, In f fs -> shown f -> f_positional f = false -> f_keyword f = true -> (In (f_name f) kw <-> isset f = true)) /\
      (if has_keyword fs then
         let '(ds, kstring) := path_split (path_text rooted (Y ++ end_comps inst (filter np_field fs ++ ks))) in
         let kstring := match (match filter np_field fs with f :: _ => Some (f_name f) | [] => None end) with
                        | Some n => join [dash] [n; kstring] | None => kstring end in
         do p <- split_params_flat kstring;
         let p := map (fun kv => (fst kv, flat_value (snd kv))) p in
         Ok (ds, p, map fst p)
       else match (match filter np_field fs with f :: _ => Some (f_name f) | [] => None end) with
            | Some n => let '(ds, pstring) := path_split (path_text rooted (Y ++ end_comps inst (filter np_field fs ++ ks))) in Ok (ds, [(n, VStr pstring)], [])
            | None => Ok (path_text rooted (Y ++ end_comps inst (filter np_field fs ++ ks)), [], [])
            end) = Ok (path_text rooted Y, map (fun f => (f_name f, VStr (tx f))) (filter np_field fs ++ ks), kw).
  Proof.
    intros HK HY. set (ends := filter np_field fs ++ ks) in *.
    assert (HE : forall f, In f ends <-> In f fs /\ shown f /\ f_positional f = false /\ isset f = true)
      by (intros f; apply (in_ends _ _ _ _ HI ks HK)).
    assert (HEN : NoDup (map f_name ends)) by (apply (ends_names _ _ _ _ HC HI ks HK)).
destruct (has_keyword fs) eqn:Ehk.
        - assert (Hend : has_end fs).
          { unfold has_keyword in Ehk. apply existsb_exists in Ehk as (f & F1 & F2).
            apply andb_true_iff in F2 as [F2 F3]. apply negb_true_iff in F3. exists f. split; [exact F1|]. split; [exact F3|now left]. }
          destruct (ends_ne _ _ _ _ HC HI ks HK Hend) as (N1 & N2 & N3). fold ends in N1, N2, N3.
          assert (Ecs : end_comps inst ends = [join [underscore] (map comp ends)]) by (destruct ends; [contradiction|reflexivity]).
          rewrite Ecs, split_path by assumption.
          assert (Ek : match (match filter np_field fs with f :: _ => Some (f_name f) | [] => None end) with
                          | Some n => join [dash] [n; join [underscore] (map comp ends)]
                          | None => join [underscore] (map comp ends) end =
                       join [underscore] (map (fun p => fst p ++ [dash] ++ snd p) (map (fun f => (f_name f, tx f)) ends))).
          { assert (Eks : map comp ks = map (fun p => fst p ++ [dash] ++ snd p) (map (fun f => (f_name f, tx f)) ks)).
            { rewrite map_map. apply map_ext_in. intros f Hf. apply (in_ks _ _ ks HK) in Hf as (_ & _ & _ & Hf & _).
              unfold StructuresFacts.comp. cbn [fst snd]. now rewrite Hf. }
            unfold ends. destruct (np_cases fs HC) as [En|(f & En & F1 & F2 & F3 & F4)]; rewrite En.
            - cbn [app]. now rewrite Eks.
            - cbn [app map fst snd]. rewrite Eks. unfold StructuresFacts.comp. rewrite F4.
              destruct ks as [|k0 ks0]; [reflexivity|]. cbn [map].
              rewrite !(join_cons [underscore]) by discriminate. cbn [join]. rewrite <- !app_assoc. reflexivity. }
          cbv zeta. rewrite Ek. clear Ek.
          set (e := map (fun f => (f_name f, tx f)) ends).
          assert (T1 : e <> []) by (unfold e; intros E; apply map_eq_nil in E; contradiction).
          assert (T2 : NoDup (map fst e)) by (unfold e; rewrite map_map; exact HEN).
          assert (T3 : Forall (fun p => ~ In dash (fst p) /\ ~ In underscore (snd p)) e).
          { apply Forall_forall. intros p Hp. apply in_map_iff in Hp as (f & <- & Hf). cbn [fst snd].
            apply HE in Hf as (F1 & F2 & F3 & F4). split.
            - apply ident_no; [now apply (co_ident _ HC)|now right].
            - destruct (tx_ok _ _ _ _ HI f F1 F2 F4) as [T _]. unfold text_ok in T. rewrite F3 in T. tauto. }
          destruct (split_whole (fun v => Ok (Some v)) (fun vs => Ok (Some (join [dash] vs))) e T1 T2 T3) as [S1 S2].
          unfold split_params_flat. rewrite S1, S2.
          rewrite (mapM_ok _ (fun p => Some (snd p))).
          2:{ intros [k t] _. cbn [fst snd]. transitivity (@Ok (option pystr) (Some (join [dash] (split dash t)))).
              - unfold value_of. pose proof (split_ne dash t). destruct (split dash t) as [|v [|v' vs]]; [contradiction| |]; reflexivity.
              - now rewrite join_split. }
          cbn [bind]. rewrite combine_map, !map_map. cbn [fst snd flat_value].
          exists (map f_name ends). split; [exact HEN|]. split.
          + intros f F1 F2 F3 F4. split.
            * intros H. apply in_map_iff in H as (g & E & Hg). apply HE in Hg as (G1 & G2 & G3 & G4).
              assert (g = f) by now apply (name_inj fs HC). now subst.
            * intros Hs. apply in_map. apply HE. tauto.
          + unfold e. rewrite !map_map. reflexivity.
        - assert (Hnk : forall f, In f fs -> shown f -> f_keyword f = false).
          { intros f F1 F2. apply not_true_is_false. intros F3. unfold has_keyword in Ehk.
            apply not_true_iff_false in Ehk. apply Ehk, existsb_exists. exists f. split; [exact F1|]. rewrite F3, F2. reflexivity. }
          assert (Eks : ks = []).
          { destruct ks as [|f l]; [reflexivity|]. exfalso. destruct (in_ks _ _ (f :: l) HK f) as (F1 & F2 & _ & F4 & _); [now left|].
            rewrite (Hnk f F1 F2) in F4. discriminate. }
          exists []. split; [constructor|]. split.
          { intros f F1 F2 F3 F4. rewrite (Hnk f F1 F2) in F4. discriminate. }
          unfold ends. rewrite Eks. rewrite !app_nil_r.
          destruct (np_cases fs HC) as [En|(f & En & F1 & F2 & F3 & F4)]; rewrite En.
          + cbn [map end_comps]. now rewrite app_nil_r.
          + assert (Hend : has_end fs) by (exists f; tauto).
            destruct (ends_ne _ _ _ _ HC HI ks HK Hend) as (_ & _ & N3). rewrite Eks, En in N3. cbn [app map join] in N3.
            cbn [map join end_comps]. rewrite split_path by assumption.
            unfold StructuresFacts.comp. now rewrite F4.
  Qed.

  Section loop.
    Variable deep : bool.
    Variable flat fin : field -> pval.
    Hypothesis Hflat : forall f, In f fs -> shown f -> isset f = true ->
      if f_positional f && f_keyword f then de (tx f) = Ok (flat f) else flat f = VStr (tx f).
    Hypothesis Hfin : forall f, In f fs -> shown f -> isset f = true ->
      if deep && (match f_class f with CStr => false | _ => true end)
      then field_de_string literal_eval uni uninumeric (f_class f) (flat f) = Ok (fin f) else fin f = flat f.
    Variable rooted : bool.
    Variable bcs : list pystr.
    Hypothesis HB : Forall plain bcs.

    Definition ini_val (f : field) : option pval :=
      if negb (f_transient f) && negb (f_positional f) && isset f then Some (VStr (tx f)) else None.
    Definition fin_val (f : field) : option pval :=
      if negb (f_transient f) && isset f then Some (fin f) else None.

    Record inv (l done : list field) (st : dstate) : Prop := {
      i_string : d_string st = path_text rooted (bcs ++ map comp (filter pos_field l));
      i_nodup : NoDup (d_keyworded st);
      i_keys : forall f, In f l -> shown f -> f_positional f = false -> f_keyword f = true ->
        (In (f_name f) (d_keyworded st) <-> isset f = true);
      i_todo : forall f, In f l -> get (d_params st) (f_name f) = ini_val f;
      i_done : forall f, In f done -> get (d_params st) (f_name f) = fin_val f;
      i_else : forall k, ~ In k (map f_name fs) -> get (d_params st) k = None;
      i_npnk : forall f, d_npnk st = Some f -> In f fs /\ nameless f }.

    (** after the value for [v] has been found *)
    Lemma eval_ok v st : In v fs -> shown v -> isset v = true -> get (d_params st) (f_name v) = Some (flat v) ->
      exists st2, dir_eval literal_eval uni uninumeric deep v st = Ok st2 /\
        d_string st2 = d_string st /\ d_keyworded st2 = d_keyworded st /\ d_npnk st2 = d_npnk st /\
        forall k, get (d_params st2) k = if streq (f_name v) k then Some (fin v) else get (d_params st) k.
    Proof.
      intros Hv Hs He Hg. unfold dir_eval. pose proof (Hfin v Hv Hs He) as HF.
      destruct (deep && _).
      - unfold gd_lookup. rewrite Hg. cbn [bind]. rewrite HF. cbn [bind]. eexists. split; [reflexivity|]. cbn.
        repeat split. intros k. apply get_set. exact streq_spec.
      - exists st. repeat split. intros k. destruct (streq (f_name v) k) eqn:E; [|reflexivity].
        apply streq_spec in E. subst k. now rewrite Hg, HF.
    Qed.

    Lemma pos_snoc l v : filter pos_field (l ++ [v]) = filter pos_field l ++ (if pos_field v then [v] else []).
    Proof. rewrite filter_app. cbn. now destruct (pos_field v). Qed.

    (** one turn of the loop, whatever stands before the component of [v] *)
    Lemma field_step v st Y : In v fs -> Forall plain Y ->
      d_string st = path_text rooted (Y ++ if pos_field v then [comp v] else []) ->
      NoDup (d_keyworded st) ->
      (shown v -> f_positional v = false -> f_keyword v = true -> (In (f_name v) (d_keyworded st) <-> isset v = true)) ->
      get (d_params st) (f_name v) = ini_val v ->
      exists st2,
        (do (skip, st1) <- dir_step literal_eval uni uninumeric v st;
         if skip then Ok st1 else dir_eval literal_eval uni uninumeric deep v st1) = Ok st2 /\
        d_string st2 = path_text rooted Y /\ NoDup (d_keyworded st2) /\
        (forall n, n <> f_name v -> (In n (d_keyworded st2) <-> In n (d_keyworded st))) /\
        get (d_params st2) (f_name v) = fin_val v /\
        (forall k, f_name v <> k -> get (d_params st2) k = get (d_params st) k) /\
        (d_npnk st2 = d_npnk st \/ d_npnk st2 = Some v /\ nameless v).
    Proof.
      intros Hv HY I1 I2 I3 Iv. unfold dir_step.
      destruct (f_transient v) eqn:E1.
      { (* transient *)
        cbn [bind]. exists st. split; [reflexivity|].
        assert (Ep : pos_field v = false) by (unfold StructuresFacts.pos_field; now rewrite E1).
        rewrite Ep, app_nil_r in I1. split; [exact I1|]. split; [exact I2|]. split; [tauto|].
        split; [|split; [tauto|now left]]. rewrite Iv. unfold ini_val, fin_val. now rewrite E1. }
      destruct (f_positional v) eqn:E2.
      { (* positional *)
        assert (Ep : pos_field v = true) by (unfold StructuresFacts.pos_field; now rewrite E1, E2).
        pose proof (pos_set _ _ _ _ HI v Hv Ep) as Es.
        assert (HP2 : plain (comp v)).
        { pose proof (pos_plain _ _ _ _ HC HI) as HP. rewrite Forall_forall in HP. apply HP, in_map, filter_In. tauto. }
        rewrite Ep in I1. rewrite I1. rewrite split_path by assumption.
        pose proof (Hflat v Hv E1 Es) as HF. rewrite E2 in HF. cbn [andb] in HF.
        assert (HS : exists st1, get (d_params st1) (f_name v) = Some (flat v) /\
            d_string st1 = path_text rooted Y /\
            d_keyworded st1 = d_keyworded st /\ d_npnk st1 = d_npnk st /\
            (forall k, f_name v <> k -> get (d_params st1) k = get (d_params st) k) /\
            (if f_keyword v then
              do parts <- de (comp v);
              do p0 <- part_at parts 0;
              if negb (is_name p0 (f_name v)) then
                if f_required v then Err ValueError
                else Ok (true, DState (path_join2 (path_text rooted Y) (comp v))
                                 (d_keyworded st) (d_npnk st) (d_params st))
              else
                do val <- (if many_parts parts
                           then do s <- stringify v (parts_from_1 parts) false; Ok (VStr s)
                           else part_at parts 1);
                Ok (false, DState (path_text rooted Y)
                             (d_keyworded st) (d_npnk st) (gd_set streq (d_params st) (f_name v) val))
             else Ok (false, DState (path_text rooted Y)
                               (d_keyworded st) (d_npnk st) (gd_set streq (d_params st) (f_name v) (VStr (comp v)))))
            = Ok (false, st1)).
        { destruct (f_keyword v) eqn:E3.
          - rewrite (de_named v (flat v) Hv E1 E2 E3 Es HF). cbn [bind part_at nth_error].
            unfold is_name. rewrite streq_refl. cbn [negb many_parts length Nat.ltb Nat.leb part_at nth_error bind].
            eexists. split; [|split; [|split; [|split; [|split; [|reflexivity]]]]]; cbn; try reflexivity.
            + rewrite (get_set streq streq_spec). now rewrite streq_refl.
            + intros k N. rewrite (get_set streq streq_spec). now rewrite streq_ne.
          - eexists. split; [|split; [|split; [|split; [|split; [|reflexivity]]]]]; cbn; try reflexivity.
            + rewrite (get_set streq streq_spec). rewrite streq_refl, HF. unfold StructuresFacts.comp. now rewrite E3.
            + intros k N. rewrite (get_set streq streq_spec). now rewrite streq_ne. }
        destruct HS as (st1 & S1 & S2 & S3 & S4 & S5 & ES). rewrite ES. cbn [bind].
        destruct (eval_ok v st1 Hv E1 Es S1) as (st2 & V1 & V2 & V3 & V4 & V5). exists st2. split; [exact V1|].
        assert (G : forall k, f_name v <> k -> get (d_params st2) k = get (d_params st) k).
        { intros k N. rewrite V5, streq_ne by exact N. now apply S5. }
        split; [now rewrite V2, S2|]. split; [now rewrite V3, S3|]. split; [intros n _; now rewrite V3, S3|].
        split; [|split; [exact G|left; now rewrite V4, S4]].
        rewrite V5, streq_refl. unfold fin_val. now rewrite E1, Es. }
      assert (Ep : pos_field v = false) by (unfold StructuresFacts.pos_field; now rewrite E1, E2).
      rewrite Ep, app_nil_r in I1.
      destruct (f_keyword v) eqn:E3.
      - destruct (isset v) eqn:Es.
        + assert (Hk : In (f_name v) (d_keyworded st)) by (apply I3; [exact E1|reflexivity..]).
          rewrite (proj2 (existsb_streq _ _) Hk). cbn [bind].
          pose proof (Hflat v Hv E1 Es) as HF. rewrite E2 in HF. cbn [andb] in HF.
          destruct (eval_ok v (DState (d_string st) (remove_first (f_name v) (d_keyworded st)) (d_npnk st) (d_params st)) Hv E1 Es)
            as (st2 & V1 & V2 & V3 & V4 & V5).
          { cbn. rewrite Iv, HF. unfold ini_val. now rewrite E1, E2, Es. }
          exists st2. split; [exact V1|]. cbn [d_string d_keyworded d_npnk d_params] in *.
          split; [now rewrite V2|]. split; [rewrite V3; now apply remove_first_nodup|].
          split; [intros n Hn; rewrite V3, remove_first_in by exact I2; tauto|].
          split; [rewrite V5, streq_refl; unfold fin_val; now rewrite E1, Es|].
          split; [intros k N; now rewrite V5, streq_ne|left; exact V4].
        + assert (Hk : ~ In (f_name v) (d_keyworded st)).
          { intros H. apply I3 in H; [congruence|exact E1|reflexivity..]. }
          replace (existsb (streq (f_name v)) (d_keyworded st)) with false
            by (symmetry; apply not_true_is_false; rewrite existsb_streq; exact Hk).
          assert (Er : f_required v = false).
          { apply not_true_is_false. intros Er. apply (io_req _ _ _ _ HI v Hv E1 Er). unfold StructuresFacts.isset in Es.
            now destruct (get_attr inst (f_name v)). }
          rewrite Er. cbn [andb bind]. exists st. split; [reflexivity|]. split; [exact I1|]. split; [exact I2|].
          split; [tauto|]. split; [|split; [tauto|now left]]. rewrite Iv. unfold ini_val, fin_val. now rewrite E1, E2, Es.
      - assert (Hn : nameless v) by (split; [exact E1|tauto]).
        assert (Es : isset v = true) by (apply (np_set _ _ _ _ HI); [exact Hv|now apply np_nameless]).
        cbn [bind]. pose proof (Hflat v Hv E1 Es) as HF. rewrite E2 in HF. cbn [andb] in HF.
        destruct (eval_ok v (DState (d_string st) (d_keyworded st) (Some v) (d_params st)) Hv E1 Es)
          as (st2 & V1 & V2 & V3 & V4 & V5).
        { cbn. rewrite Iv, HF. unfold ini_val. now rewrite E1, E2, Es. }
        exists st2. split; [exact V1|]. cbn [d_string d_keyworded d_npnk d_params] in *.
        split; [now rewrite V2|]. split; [now rewrite V3|]. split; [intros n _; now rewrite V3|].
        split; [rewrite V5, streq_refl; unfold fin_val; now rewrite E1, Es|].
        split; [intros k N; now rewrite V5, streq_ne|right; split; [exact V4|exact Hn]].
    Qed.

    Lemma step_ok l v done st : fs = l ++ v :: done -> inv (l ++ [v]) done st ->
      exists st2,
        (do (skip, st1) <- dir_step literal_eval uni uninumeric v st;
         if skip then Ok st1 else dir_eval literal_eval uni uninumeric deep v st1) = Ok st2 /\
        inv l (v :: done) st2.
    Proof.
      intros Efs I. destruct I as [I1 I2 I3 I4 I5 I6 I7].
      assert (Hv : In v fs) by (rewrite Efs; apply in_elt).
      assert (HN := co_names _ HC). rewrite Efs, map_app in HN. cbn [map] in HN.
      assert (Nl : forall f, In f l -> f_name v <> f_name f).
      { intros f H E. apply NoDup_remove_2 in HN. apply HN. rewrite E, in_app_iff. left. now apply in_map. }
      assert (Nd : forall f, In f done -> f_name v <> f_name f).
      { intros f H E. apply NoDup_remove_2 in HN. apply HN. rewrite E, in_app_iff. right. now apply in_map. }
      assert (Nf : forall k, ~ In k (map f_name fs) -> f_name v <> k).
      { intros k H E. apply H. rewrite <- E. now apply in_map. }
      assert (Hvl : In v (l ++ [v])) by (apply in_app_iff; right; now left).
      destruct (field_step v st (bcs ++ map comp (filter pos_field l))) as (st2 & S0 & S1 & S2 & S3 & S4 & S5 & S6).
      { exact Hv. }
      { apply Forall_app. split; [exact HB|]. pose proof (pos_plain _ _ _ _ HC HI) as HP. rewrite Efs, filter_app, map_app in HP.
        now apply Forall_app in HP as [HP _]. }
      { rewrite I1, pos_snoc, map_app, app_assoc. now destruct (pos_field v). }
      { exact I2. }
      { now apply I3. }
      { now apply I4. }
      exists st2. split; [exact S0|]. constructor.
      - exact S1.
      - exact S2.
      - intros f H H1 H2 H3. rewrite S3 by (intros E; symmetry in E; now apply (Nl f H)). apply I3; try assumption.
        apply in_app_iff. now left.
      - intros f H. rewrite S5 by now apply Nl. apply I4, in_app_iff. now left.
      - intros f [<-|H]; [exact S4|]. rewrite S5 by now apply Nd. now apply I5.
      - intros k H. rewrite S5 by now apply Nf. now apply I6.
      - intros f E. destruct S6 as [S6|[S6 Hn]]; [apply I7; congruence|]. rewrite S6 in E. injection E as <-. tauto.
    Qed.

    Lemma loop_ok : forall l done st, fs = l ++ done -> inv l done st ->
      exists st2, dir_loop literal_eval uni uninumeric deep (rev l) st = Ok st2 /\ inv [] fs st2.
    Proof.
      induction l as [|v l IH] using rev_ind; intros done st Efs I.
      - exists st. split; [reflexivity|]. now rewrite Efs.
      - rewrite <- app_assoc in Efs. cbn [app] in Efs.
        destruct (step_ok l v done st Efs I) as (st2 & ES & I2).
        rewrite rev_app_distr. cbn [rev app dir_loop].
        destruct (dir_step literal_eval uni uninumeric v st) as [[skip st1]|]; [|discriminate]. cbn [bind] in ES |- *.
        rewrite ES. cbn [bind]. apply (IH (v :: done) st2 Efs I2).
    Qed.

    Lemma read_ok : class_ok fs -> (forall d, get_dir_string fs inst = Ok d -> contains (lit "txt") (path_ext d) = false) ->
      exists d params, get_dir_string fs inst = Ok d /\
        params_from_dir_string literal_eval uni uninumeric pval_eq fs deep (path_join2 (path_text rooted bcs) d) = Ok params /\
        get params (lit "base_dir") = Some (VStr (path_text rooted bcs)) /\
        (forall f, In f fs -> get params (f_name f) = fin_val f) /\
        (forall k, ~ In k (map f_name fs) -> k <> lit "base_dir" -> get params k = None).
    Proof.
      intros HC2 Hx. destruct (nonpos_string _ _ _ _ HC HI) as (ks & HK & EK).
      pose proof (dir_string_ok _ _ _ _ HC HI ks HK HC2 EK) as ED.
      destruct (comps_ok _ _ _ _ HC HI ks HK HC2) as [C1 C2]. specialize (Hx _ ED).
      set (cs := comps fs inst ks) in *. exists (path_text false cs).
      assert (HF : Forall plain (bcs ++ cs)) by (apply Forall_app; split; assumption).
      assert (Hne : bcs ++ cs <> []) by (intros E; apply app_eq_nil in E as [_ E]; contradiction).
      rewrite (join_path rooted bcs cs HB C1 C2).
      assert (Hext : contains (lit "txt") (path_ext (path_text rooted (bcs ++ cs))) = false).
      { destruct (exists_last C2) as (l & c & El). rewrite El in C1, Hx |- *. apply Forall_app in C1 as [C1 C3].
        inversion C3; subst. rewrite app_assoc, ext_path by (try assumption; apply Forall_app; split; assumption).
        now rewrite ext_path in Hx. }
      unfold params_from_dir_string. rewrite Hext, (norm_path rooted _ HF Hne), (has_npnk_ok fs HC). cbn [bind].
      set (ends := filter np_field fs ++ ks) in *.
      assert (HE : forall f, In f ends <-> In f fs /\ shown f /\ f_positional f = false /\ isset f = true)
        by (intros f; apply (in_ends _ _ _ _ HI ks HK)).
      assert (HEN : NoDup (map f_name ends)) by (apply (ends_names _ _ _ _ HC HI ks HK)).
      (* the starting state *)
      set (p0 := map (fun f => (f_name f, VStr (tx f))) ends).
      destruct (start_ok ks rooted (bcs ++ map comp (filter pos_field fs)) HK) as (kw & K1 & K2 & EST).
      { apply Forall_app. split; [exact HB|apply (pos_plain _ _ _ _ HC HI)]. }
      fold ends in EST. fold p0 in EST. rewrite <- app_assoc in EST.
      change (map comp (filter pos_field fs) ++ end_comps inst ends) with cs in EST.
      match goal with |- context[bind ?x _] => replace x with (@Ok (pystr * list (pystr * pval) * list pystr)
        (path_text rooted (bcs ++ map comp (filter pos_field fs)), p0, kw)) by (symmetry; exact EST) end.
      cbn [bind].
      assert (I0 : inv fs [] (DState (path_text rooted (bcs ++ map comp (filter pos_field fs))) kw None p0)).
      { constructor; cbn [d_string d_keyworded d_npnk d_params]; try assumption.
        - reflexivity.
        - intros f Hf. unfold ini_val. destruct (negb (f_transient f) && negb (f_positional f) && isset f) eqn:E.
          + apply andb_true_iff in E as [E E3]. apply andb_true_iff in E as [E1 E2]. apply negb_true_iff in E1, E2.
            apply (in_get streq streq_spec); [unfold p0; rewrite map_map; exact HEN|].
            unfold p0. apply in_map_iff. exists f. split; [reflexivity|]. apply HE. tauto.
          + apply (get_none streq streq_spec). unfold p0. rewrite map_map. cbn [fst]. intros H.
            apply in_map_iff in H as (g & Eg & Hg). apply HE in Hg as (G1 & G2 & G3 & G4).
            assert (g = f) by now apply (name_inj fs HC). subst g. unfold shown in G2. rewrite G2, G3, G4 in E. discriminate.
        - intros f [].
        - intros k Hk. apply (get_none streq streq_spec). unfold p0. rewrite map_map. cbn [fst]. intros H.
          apply in_map_iff in H as (g & Eg & Hg). apply HE in Hg as (G1 & _). apply Hk. rewrite <- Eg. now apply in_map.
        - discriminate. }
      destruct (loop_ok fs [] _ (eq_sym (app_nil_r fs)) I0) as (st & EL & I). rewrite EL. cbn [bind].
      destruct I as [J1 J2 J3 J4 J5 J6 J7]. cbn [map filter] in J1. rewrite app_nil_r in J1.
      assert (EP : match d_npnk st with
           | Some f =>
               if gd_mem streq (d_params st) (f_name f) then Ok (d_params st)
               else match d_keyworded st with
                    | [k] =>
                        do val <- gd_lookup streq (d_params st) k;
                        do val <- (if deep then field_de_string literal_eval uni uninumeric (f_class f) val else Ok val);
                        Ok (gd_set streq (gd_pop streq (d_params st) k) (f_name f) val)
                    | _ => Err ValueError
                    end
           | None => Ok (d_params st)
           end = Ok (d_params st)).
      { destruct (d_npnk st) as [f|] eqn:En; [|reflexivity]. destruct (J7 f eq_refl) as [F1 F2].
        unfold gd_mem. rewrite (J5 f F1). unfold fin_val. rewrite (np_set _ _ _ _ HI f F1) by now apply np_nameless.
        destruct F2 as (F2 & _). unfold shown in F2. now rewrite F2. }
      assert (Efirst : exists v rest, fs = v :: rest /\ f_constant v = None).
      { pose proof (co_first _ HC2) as HF1. destruct (co_shown _ HC2) as (g & G & _).
        destruct fs as [|v rest]; [destruct G|]. exists v, rest. split; [reflexivity|]. now apply (HF1 v rest). }
      destruct Efirst as (v & rest & Ev & Ec).
      exists (gd_set streq (d_params st) (lit "base_dir") (VStr (d_string st))).
      split; [exact ED|]. split.
      { rewrite Ev at 1. rewrite Ec. cbn [bind]. rewrite EP. reflexivity. }
      split; [rewrite (get_set streq streq_spec), streq_refl, J1; reflexivity|]. split.
      - intros f Hf. rewrite (get_set streq streq_spec), streq_ne; [now apply J5|].
        intros E. apply (co_base _ HC). rewrite E. now apply in_map.
      - intros k H1 H2. rewrite (get_set streq streq_spec), streq_ne by congruence. now apply J6.
    Qed.
  End loop.
End read.
