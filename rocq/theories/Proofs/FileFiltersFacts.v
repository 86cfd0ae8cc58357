(** Facts about the filters of FileEnvironment. *)
From Verif Require Import Proofs.StrFacts Model.FileFilters Spec.FileFilters.
Open Scope Z_scope.

Section facts.
  Context {Column Range : Type}.
  Variable rollmean unitvect : Column -> result Column.
  Variable scale : Range -> Column -> result Column.
  Variable ranges : option (list (pystr * Range)).
  Notation processed := (processed rollmean unitvect scale ranges).
  Notation apply_filters := (apply_filters rollmean unitvect scale ranges).
  Notation block := (filter_data_block rollmean unitvect scale ranges).
  Notation columns := (processed_columns rollmean unitvect scale ranges).

  Lemma filters_processed h : forall names fs c c', make_filters names = Ok fs ->
    (apply_filters h fs c = Ok c' <-> processed h names c c').
  Proof.
    induction names as [|n names IH]; intros fs c c' E; cbn [make_filters] in E.
    - injection E as <-. cbn. split; [intros [= <-]; constructor|]. inversion 1; reflexivity.
    - destruct (make_filter n) as [x|] eqn:En; cbn [bind] in E; [|discriminate].
      destruct (make_filters names) as [xs|] eqn:Ex; cbn [bind] in E; [|discriminate].
      injection E as <-. specialize (IH xs). unfold make_filter in En.
      destruct n as [|a n'] eqn:Hn.
      + injection En as <-. rewrite IH by reflexivity. split; [apply skipped|]. inversion 1; subst; assumption.
      + rewrite <- Hn in *. clear Hn a n'.
        destruct (streq n (lit "rollmean")) eqn:E1.
        { apply streq_spec in E1. subst n. injection En as <-. cbn [FileFilters.apply_filters apply_filter].
          split.
          - destruct (rollmean c) as [c1|] eqn:Er; cbn [bind]; [|discriminate]. intros H.
            eapply averaged; [exact Er|]. now apply IH.
          - inversion 1; subst. match goal with H : rollmean c = _ |- _ => rewrite H end. cbn [bind].
            now apply IH. }
        destruct (streq n (lit "trace")); [discriminate|].
        destruct (streq n (lit "return")); [discriminate|].
        destruct (streq n (lit "scaled")) eqn:E2.
        { apply streq_spec in E2. subst n. injection En as <-. cbn [FileFilters.apply_filters apply_filter].
          split.
          - destruct h as [h|]; [|discriminate]. destruct ranges as [r|] eqn:Er; [|discriminate].
            destruct (gd_get streq r h) as [g|] eqn:Eg; [|discriminate].
            destruct (scale g c) as [c1|] eqn:Es; cbn [bind]; [|discriminate]. intros H.
            eapply scaled; try reflexivity; try eassumption. now apply IH.
          - inversion 1; subst.
            match goal with H : gd_get streq _ _ = Some _ |- _ => rewrite H end.
            match goal with H : scale _ c = _ |- _ => rewrite H end. cbn [bind]. now apply IH. }
        destruct (streq n (lit "unitvect")) eqn:E3; [|discriminate].
        apply streq_spec in E3. subst n. injection En as <-. cbn [FileFilters.apply_filters apply_filter].
        split.
        * destruct (unitvect c) as [c1|] eqn:Er; cbn [bind]; [|discriminate]. intros H.
          eapply unitized; [exact Er|]. now apply IH.
        * inversion 1; subst. match goal with H : unitvect c = _ |- _ => rewrite H end. cbn [bind].
          now apply IH.
  Qed.

  Lemma get_filters : forall kwargs h ff l, get_file_filters kwargs h = Ok (ff, l) ->
    l = match kwargs with [] => h | _ => last_header kwargs end /\
    forall name, match gd_get streq kwargs name with
                 | Some names => exists fs, gd_get streq ff name = Some fs /\ make_filters names = Ok fs
                 | None => gd_get streq ff name = None
                 end.
  Proof.
    induction kwargs as [|[k names] kwargs IH]; intros h ff l E; cbn [get_file_filters] in E.
    - injection E as <- <-. split; reflexivity.
    - destruct (make_filters names) as [fs|] eqn:Ef; cbn [bind] in E; [|discriminate].
      destruct (get_file_filters kwargs (Some k)) as [[ff' l']|] eqn:Ek; cbn [bind] in E; [|discriminate].
      injection E as <- <-. destruct (IH _ _ _ Ek) as [-> G]. split.
      + destruct kwargs as [|p q]; reflexivity.
      + intros name. cbn [gd_get]. destruct (streq k name); [exists fs; auto|apply G].
  Qed.

  Lemma block_processed kwargs ff l mapping data out : get_file_filters kwargs None = Ok (ff, l) ->
    (block ff l mapping data = Ok out <->
     columns (fun _ => last_header kwargs) kwargs mapping data out).
  Proof.
    intros E. apply get_filters in E. destruct E as [El G].
    assert (l = last_header kwargs) as -> by (destruct kwargs; exact El). clear El.
    unfold filter_data_block, processed_columns. revert out.
    induction data as [|[h c] data IH]; intros out; cbn [mapM].
    - split; [intros [= <-]; constructor|]. inversion 1; reflexivity.
    - set (name := match gd_get streq mapping h with Some p => p | None => h end).
      specialize (G name). 
      assert (P : forall c', apply_filters (last_header kwargs)
          (match gd_get streq ff name with Some fs => fs | None => [] end) c = Ok c' <->
        processed (last_header kwargs) (match gd_get streq kwargs name with Some fs => fs | None => [] end) c c').
      { intros c'. destruct (gd_get streq kwargs name) as [names|].
        - destruct G as [fs [-> M]]. now apply filters_processed.
        - rewrite G. now apply (filters_processed _ []). }
      destruct (apply_filters (last_header kwargs) _ c) as [c'|e] eqn:Ea; cbn [bind].
      + destruct (mapM _ data) as [ys|] eqn:Em; cbn [bind].
        * split.
          -- intros [= <-]. constructor; [|now apply IH]. cbn [fst snd]. split; [reflexivity|]. fold name. now apply P.
          -- inversion 1 as [|? [h2 c2] ? out' [H1 H2] H3]; subst. cbn [fst snd] in *. subst h2. fold name in H2.
             apply P in H2. injection H2 as <-. apply IH in H3. congruence.
        * split; [discriminate|]. inversion 1 as [|? [h2 c2] ? out' [H1 H2] H3]; subst.
          apply IH in H3. discriminate.
      + split; [discriminate|]. inversion 1 as [|? [h2 c2] ? out' [H1 H2] H3]; subst.
        cbn [fst snd] in *. fold name in H2. apply P in H2. discriminate.
  Qed.

  Lemma processed_noscale h h' : forall names c c', ~ In (lit "scaled") names ->
    processed h names c c' -> processed h' names c c'.
  Proof.
    intros names c c' N P. induction P.
    - constructor.
    - constructor. apply IHP. intros H. apply N. now right.
    - eapply averaged; [eassumption|]. apply IHP. intros X. apply N. now right.
    - eapply unitized; [eassumption|]. apply IHP. intros X. apply N. now right.
    - exfalso. apply N. now left.
  Qed.

  (** scaling with the own range, if only the last header is scaled *)
  Lemma own_range kwargs ff l mapping data out :
    (forall h names, In (h, names) kwargs -> In (lit "scaled") names -> last_header kwargs = Some h) ->
    get_file_filters kwargs None = Ok (ff, l) -> block ff l mapping data = Ok out ->
    columns Some kwargs mapping data out.
  Proof.
    intros Hl E B. apply (block_processed _ _ _ _ _ _ E) in B.
    unfold processed_columns in *. induction B as [|[h c] [h' c'] data out [H1 H2] B IH]; constructor; auto.
    cbn [fst snd] in *. split; [exact H1|].
    set (name := match gd_get streq mapping h with Some p => p | None => h end) in *.
    destruct (gd_get streq kwargs name) as [names|] eqn:Eg.
    - destruct (in_dec (list_eq_dec Z.eq_dec) (lit "scaled") names) as [Hi|Hi].
      + assert (In (name, names) kwargs).
        { clear -Eg. induction kwargs as [|[k v] d IH]; cbn in Eg; [discriminate|].
          destruct (streq k name) eqn:E; [|right; auto]. apply streq_spec in E. subst k. left. congruence. }
        rewrite <- (Hl name names) by assumption. exact H2.
      + eapply processed_noscale; eassumption.
    - inversion H2. constructor.
  Qed.

  (** two scaled headers: the first is scaled with the range of the second *)
  Lemma other_range h1 h2 r g1 g2 c c1 : h1 <> h2 -> ranges = Some r ->
    gd_get streq r h1 = Some g1 -> gd_get streq r h2 = Some g2 -> scale g2 c = Ok c1 ->
    exists ff l, get_file_filters [(h1, [lit "scaled"]); (h2, [lit "scaled"])] None = Ok (ff, l) /\
      block ff l [] [(h1, c)] = Ok [(h1, c1)].
  Proof.
    intros Hn Hr H1 H2 Hs. eexists _, _. split; [reflexivity|].
    unfold filter_data_block. cbn [mapM gd_get].
    assert (streq h1 h1 = true) as -> by now apply streq_spec.
    cbn [FileFilters.apply_filters apply_filter]. rewrite Hr, H2, Hs. reflexivity.
  Qed.

  (** the filters that cannot be made *)
  Lemma make_errors names : (exists fs, make_filters names = Ok fs) <->
    (forall n, In n names -> n = [] \/ n = lit "rollmean" \/ n = lit "scaled" \/ n = lit "unitvect").
  Proof.
    induction names as [|n names IH]; cbn [make_filters].
    - split; [intros _ n Hn; destruct Hn|intros _; now exists []].
    - assert (M : (exists x, make_filter n = Ok x) <->
        n = [] \/ n = lit "rollmean" \/ n = lit "scaled" \/ n = lit "unitvect").
      { split.
        - intros [x E]. unfold make_filter in E. destruct n as [|a n'] eqn:Hn; [now left|]. rewrite <- Hn in *.
          destruct (streq n (lit "rollmean")) eqn:E1; [apply streq_spec in E1; auto|].
          destruct (streq n (lit "trace")); [discriminate|]. destruct (streq n (lit "return")); [discriminate|].
          destruct (streq n (lit "scaled")) eqn:E2; [apply streq_spec in E2; auto|].
          destruct (streq n (lit "unitvect")) eqn:E3; [apply streq_spec in E3; auto|discriminate].
        - intros [-> | [-> | [-> | ->]]]; eexists; reflexivity. }
      split.
      + intros [fs E]. destruct (make_filter n) as [x|] eqn:En; cbn [bind] in E; [|discriminate].
        destruct (make_filters names) as [xs|]; cbn [bind] in E; [|discriminate].
        intros m [<-|Hm]; [apply M; eauto|]. apply IH; eauto.
      + intros H. destruct (proj2 M (H n (or_introl eq_refl))) as [x ->].
        destruct (proj2 IH (fun m Hm => H m (or_intror Hm))) as [xs ->]. cbn [bind]. eauto.
  Qed.
End facts.
