(** The models of Experiments. *)
From Verif Require Import Proofs.DictFacts Proofs.PyFacts Proofs.ParamsFacts Proofs.StrFacts Proofs.PathFacts Proofs.StructuresFacts Proofs.StructuresRead
  Proofs.StructuresTop Proofs.NestedFacts Proofs.NestedRead Proofs.NestedTop Proofs.RecordsFacts Proofs.StructLogsFacts Proofs.StructLogsExt Proofs.StructLogsTop
  Spec.ExperimentsSpec Proofs.ExperimentsFacts.
Open Scope Z_scope.

Definition member_nested (P : member -> Prop) (HF : forall f, P (MField f)) (HN : forall n r k p t, P (MStruct n r k p t None))
  (HS : forall n r k p t ms inh, (forall m, In m ms -> P m) -> P (MStruct n r k p t (Some (ms, inh)))) : forall m, P m :=
  fix F m := match m with
    | MField f => HF f
    | MStruct n r k p t None => HN n r k p t
    | MStruct n r k p t (Some (ms, inh)) => HS n r k p t ms inh
        ((fix G (l : list member) : forall m, In m l -> P m :=
            match l with
            | [] => fun m H => match H with end
            | x :: l' => fun m H => match H with
                | or_introl E => match E in _ = y return P y with eq_refl => F x end
                | or_intror H' => G l' m H'
                end
            end) ms)
    end.

Section models.
  Variable experiment : list member -> list pystr -> bool.
  Variable log_model : list member -> bool.
  Variable model_file : list member -> option pystr.
  Variable dump : pval -> pystr.
  Variable undump : pystr -> result pval.
  Notation save_model := (save_model model_file dump).
  Notation model_file_path := (model_file_path model_file).
  Notation model_exists := (model_exists model_file).
  Notation model_at := (model_at model_file).
  Notation exit_self := (exit_self log_model model_file dump).
  Notation exit_member := (exit_member experiment log_model model_file dump).
  Notation exit_members := (exit_members experiment log_model model_file dump).
  Notation exit_exp := (exit_exp experiment log_model model_file dump).
  Notation run_exp := (run_exp experiment log_model model_file dump).
  Notation load_model := (load_model experiment log_model model_file dump undump).
  Notation part := (part experiment).

  Lemma model_path ms a d f p : model_at ms a d f p -> log_path ms a = Ok d /\ model_file_path ms a = Ok p.
  Proof.
    intros (_ & H2 & _ & _ & b & s & Hb & Hs & -> & _ & ->). cbn [l_log_file l_members] in *. apply value_attr in Hb.
    unfold Experiments.model_file_path, log_path. rewrite H2, Hb. cbn [bind]. rewrite Hs. now cbn [bind].
  Qed.
  Lemma no_model_attr a : no_model a -> self_attr a "_model" = Err AttributeError.
  Proof. unfold no_model, self_attr, attribute. now intros ->. Qed.

  (** ** Saving *)
  Theorem model_saved ms fs a d f p m x : model_at ms a d f p -> (x = Some m \/ x = None /\ get_value a (lit "_model") = Some m) ->
    gd_get streq fs d = None -> gd_get streq fs p = None ->
    exists fs2, save_model ms fs a x = (fs2, Ok (Some p)) /\ gd_get streq fs2 p = Some (dump m) /\
      (forall q, q <> p -> gd_get streq fs2 q = gd_get streq fs q).
  Proof.
    intros HL Hx Hd Hp. destruct (model_path _ _ _ _ _ HL) as (L2 & L3).
    destruct HL as (_ & _ & F1 & F2 & b & s & _ & _ & _ & D1 & P1).
    exists (gd_set streq fs p (dump m)).
    assert (M : gd_mem streq fs p = false) by (unfold gd_mem; now rewrite Hp).
    assert (M2 : gd_mem streq fs d = false) by (unfold gd_mem; now rewrite Hd).
    assert (EX : (match x with
           | Some m => Ok m
           | None => match self_attr a "_model" with
                     | Ok m => Ok m
                     | Err _ => do _ <- nested_string ms a; Err TypeError
                     end
           end) = Ok m).
    { destruct Hx as [->|[-> Hv]]; [reflexivity|]. apply value_attr in Hv. now rewrite Hv. }
    split; [|split].
    - unfold Experiments.save_model. rewrite EX. unfold Experiments.model_exists. rewrite L3, M, L2. cbn [bind].
      unfold makedirs. destruct d as [|y d]; [congruence|]. rewrite M2. cbn [bind].
      replace (is_directory p) with false by (symmetry; rewrite P1; now apply ends_not_dir). reflexivity.
    - now rewrite (get_set streq streq_spec), streq_refl.
    - intros q Hq. rewrite (get_set streq streq_spec), streq_ne by congruence. reflexivity.
  Qed.
  Theorem model_once ms fs a d f p x t : model_at ms a d f p -> (x <> None \/ exists m, get_value a (lit "_model") = Some m) ->
    gd_get streq fs p = Some t -> save_model ms fs a x = (fs, Ok None).
  Proof.
    intros HL Hx Hp. destruct (model_path _ _ _ _ _ HL) as (L2 & L3). unfold Experiments.save_model, Experiments.model_exists. rewrite L3.
    unfold gd_mem. rewrite Hp. destruct x as [m|]; [reflexivity|]. destruct Hx as [Hx|(m & Hm)]; [congruence|]. apply value_attr in Hm. now rewrite Hm.
  Qed.
  Theorem model_missing ms fs a s : no_model a -> nested_string ms a = Ok s -> save_model ms fs a None = (fs, Err TypeError).
  Proof. intros Hn Hs. unfold Experiments.save_model. rewrite (no_model_attr _ Hn), Hs. reflexivity. Qed.

  Lemma save_steps ms fs a x fs2 r : save_model ms fs a x = (fs2, r) ->
    fs2 = fs \/ exists p m, model_file_path ms a = Ok p /\ gd_get streq fs p = None /\ fs2 = gd_set streq fs p (dump m) /\
      (x = Some m \/ x = None /\ self_attr a "_model" = Ok m).
  Proof.
    unfold Experiments.save_model. intros E.
    assert (GO : forall m, match model_exists ms fs a with
        | Err e => (fs, Err e)
        | Ok true => (fs, Ok None)
        | Ok false =>
            match (do d <- log_path ms a; do _ <- makedirs fs d; model_file_path ms a) with
            | Err e => (fs, Err e)
            | Ok p => if is_directory p then (fs, Err OSError) else (gd_set streq fs p (dump m), Ok (Some p))
            end
        end = (fs2, r) -> fs2 = fs \/ exists p, model_file_path ms a = Ok p /\ gd_get streq fs p = None /\ fs2 = gd_set streq fs p (dump m)).
    { clear E. intros m E. unfold Experiments.model_exists in E. destruct (model_file_path ms a) as [p|e0].
      - unfold gd_mem in E at 1. destruct (gd_get streq fs p) as [old|] eqn:Eo; [injection E as <- _; now left|].
        destruct (log_path ms a) as [d|]; cbn [bind] in E; [|injection E as <- _; now left].
        destruct (makedirs fs d) as [u|]; cbn [bind] in E; [|injection E as <- _; now left].
        destruct (is_directory p); [injection E as <- _; now left|]. injection E as <- _. right. eauto.
      - left. destruct e0; try (injection E as <- _; reflexivity).
        destruct (log_path ms a) as [d|]; cbn [bind] in E; [|injection E as <- _; reflexivity].
        destruct (makedirs fs d) as [u|]; cbn [bind] in E; injection E as <- _; reflexivity. }
    destruct x as [m|].
    - destruct (GO m E) as [->|(p & H1 & H2 & H3)]; [now left|]. right. exists p, m. eauto 8.
    - destruct (self_attr a "_model") as [m|e0].
      + destruct (GO m E) as [->|(p & H1 & H2 & H3)]; [now left|]. right. exists p, m. eauto 8.
      + left. destruct (nested_string ms a); cbn [bind] in E; injection E as <- _; reflexivity.
  Qed.

  (** ** Leaving *)
  (** files are only added, and each holds the model of a part *)
  Definition adds (owner : list member -> sattrs -> Prop) (fs fs2 : filesys) : Prop := forall q,
    gd_get streq fs2 q = gd_get streq fs q \/
    (gd_get streq fs q = None /\ exists ms x m, owner ms x /\ log_model ms = true /\ model_file_path ms x = Ok q /\
       self_attr x "_model" = Ok m /\ gd_get streq fs2 q = Some (dump m)).
  Lemma adds_refl owner fs : adds owner fs fs.
  Proof. intros q. now left. Qed.
  Lemma adds_trans owner fs1 fs2 fs3 : adds owner fs1 fs2 -> adds owner fs2 fs3 -> adds owner fs1 fs3.
  Proof.
    intros H1 H2 q. destruct (H1 q) as [E1|(N1 & ms & x & m & A1 & A2 & A3 & A4 & A5)], (H2 q) as [E2|(N2 & B)].
    - left. congruence.
    - right. split; [congruence|exact B].
    - right. split; [exact N1|]. exists ms, x, m. repeat (split; [assumption|]). congruence.
    - congruence.
  Qed.
  Lemma adds_weaken (o1 o2 : list member -> sattrs -> Prop) fs fs2 : (forall ms x, o1 ms x -> o2 ms x) -> adds o1 fs fs2 -> adds o2 fs fs2.
  Proof. intros H HA q. destruct (HA q) as [E|(N & ms & x & m & A1 & A2)]; [now left|]. right. split; [exact N|]. exists ms, x, m. split; [now apply H|exact A2]. Qed.
  Lemma adds_keeps owner fs fs2 q : adds owner fs fs2 -> gd_get streq fs q <> None -> gd_get streq fs2 q <> None.
  Proof. intros H Hq. destruct (H q) as [->|(N & _)]; [exact Hq|contradiction]. Qed.

  Lemma self_adds ms fs a fs2 r : exit_self ms fs a = (fs2, r) -> adds (fun m x => m = ms /\ x = a) fs fs2.
  Proof.
    unfold Experiments.exit_self. destruct (log_model ms) eqn:EL; [|intros E; injection E as <- _; apply adds_refl].
    destruct (save_model ms fs a None) as [fs' r'] eqn:ES. intros E. injection E as <- _.
    destruct (save_steps _ _ _ _ _ _ ES) as [->|(p & m & H1 & H2 & -> & H3)]; [apply adds_refl|].
    intros q. rewrite (get_set streq streq_spec). destruct (streq p q) eqn:Eq; [|now left]. apply streq_spec in Eq. subst q. right.
    split; [exact H2|]. exists ms, a, m. destruct H3 as [H3|[_ H3]]; [discriminate|]. repeat (split; [first [reflexivity|assumption|now split]|]). reflexivity.
  Qed.
  Lemma self_saves ms fs a fs2 r d f p : exit_self ms fs a = (fs2, r) -> r = Ok tt \/ r = Err AttributeError -> log_model ms = true ->
    model_at ms a d f p -> gd_get streq fs2 p <> None.
  Proof.
    intros E Hr HL HM. destruct (model_path _ _ _ _ _ HM) as (L2 & L3). unfold Experiments.exit_self in E. rewrite HL in E.
    destruct (save_model ms fs a None) as [fs' r'] eqn:ES. injection E as <- <-.
    unfold Experiments.save_model in ES. destruct (self_attr a "_model") as [m|e0].
    - unfold Experiments.model_exists in ES. rewrite L3, L2 in ES. cbn [bind] in ES. unfold gd_mem in ES at 1.
      destruct (gd_get streq fs p) as [old|] eqn:Eo; [injection ES as <- _; congruence|].
      destruct HM as (_ & _ & F1 & F2 & b & s & _ & _ & _ & D1 & P1).
      assert (ND : is_directory p = false) by (rewrite P1; now apply ends_not_dir).
      unfold makedirs in ES. destruct d as [|y d]; [congruence|]. destruct (gd_mem streq fs (y :: d)); cbn [bind] in ES; rewrite ?ND in ES; injection ES as <- <-.
      + destruct Hr as [Hr|Hr]; discriminate.
      + now rewrite (get_set streq streq_spec), streq_refl.
    - destruct HM as (_ & _ & _ & _ & b & s & _ & Hs & _). cbn [l_members] in Hs. rewrite Hs in ES. cbn [bind] in ES. injection ES as <- <-.
      destruct Hr as [Hr|Hr]; discriminate.
  Qed.

  Lemma exit_member_struct n req k p t ms inh fs a x : gd_get streq a n = Some (SInst x) -> experiment ms inh = true ->
    exit_member (MStruct n req k p t (Some (ms, inh))) fs a =
    let (fs2, r) := exit_exp ms fs x in (fs2, match r with Err AttributeError => Ok tt | _ => r end).
  Proof.
    intros E1 E2. cbn [Experiments.exit_member]. rewrite E1, E2. unfold Experiments.exit_exp.
    replace ((fix go (l : list member) (fs0 : filesys) {struct l} : filesys * result unit :=
      match l with
      | [] => (fs0, Ok tt)
      | x0 :: l' => let (fs1, r) := exit_member x0 fs0 x in match r with Ok _ => go l' fs1 | Err e => (fs1, Err e) end
      end) ms fs) with (exit_members ms fs x).
    - destruct (exit_members ms fs x) as [fs1 [u|e]]; reflexivity.
    - clear. revert fs. induction ms as [|m ms IH]; intros fs; cbn [Experiments.exit_members]; [reflexivity|].
      destruct (exit_member m fs x) as [fs1 [u|e]]; [apply IH|reflexivity].
  Qed.

  (** a part, or one of its parts by this member *)
  Definition part_by (m : member) (a : sattrs) (ms2 : list member) (y : sattrs) : Prop :=
    match m with
    | MStruct n _ _ _ _ (Some (ms, inh)) => exists x, experiment ms inh = true /\ gd_get streq a n = Some (SInst x) /\ part ms x ms2 y
    | _ => False
    end.
  Definition leaves_by (m : member) : Prop := forall fs a fs2 r, exit_member m fs a = (fs2, r) ->
    adds (part_by m a) fs fs2 /\
    (r = Ok tt -> forall ms x d f p, part_by m a ms x -> log_model ms = true -> model_at ms x d f p -> gd_get streq fs2 p <> None) /\
    r <> Err AttributeError.

  Lemma members_leave a : forall l, (forall m, In m l -> leaves_by m) -> forall fs fs2 r, exit_members l fs a = (fs2, r) ->
    adds (fun ms x => exists m, In m l /\ part_by m a ms x) fs fs2 /\
    (r = Ok tt -> forall m ms x d f p, In m l -> part_by m a ms x -> log_model ms = true -> model_at ms x d f p -> gd_get streq fs2 p <> None) /\
    r <> Err AttributeError.
  Proof.
    induction l as [|m l IH]; intros HL fs fs2 r E.
    { injection E as <- <-. split; [apply adds_refl|]. split; [intros _ m ms x d f p []|discriminate]. }
    cbn [Experiments.exit_members] in E. destruct (exit_member m fs a) as [fs1 r1] eqn:E1.
    destruct (HL m (or_introl eq_refl) _ _ _ _ E1) as (A1 & S1 & N1). destruct r1 as [[]|e].
    - destruct (IH (fun m' H => HL m' (or_intror H)) _ _ _ E) as (A2 & S2 & N2). split; [|split; [|exact N2]].
      + eapply adds_trans; [eapply adds_weaken; [|exact A1]|eapply adds_weaken; [|exact A2]].
        * intros ms x H. exists m. split; [now left|exact H].
        * intros ms x (m' & H1 & H2). exists m'. split; [now right|exact H2].
      + intros Hr m' ms x d f p [<-|Hm] Hp Hl Ha.
        * eapply adds_keeps; [exact A2|]. exact (S1 eq_refl ms x d f p Hp Hl Ha).
        * exact (S2 Hr m' ms x d f p Hm Hp Hl Ha).
    - injection E as <- <-. split; [|split; [discriminate|exact N1]].
      eapply adds_weaken; [|exact A1]. intros ms x H. exists m. split; [now left|exact H].
  Qed.
  Lemma exit_leaves ms a : (forall m, In m ms -> leaves_by m) -> forall fs fs2 r, exit_exp ms fs a = (fs2, r) ->
    adds (part ms a) fs fs2 /\
    (r = Ok tt \/ r = Err AttributeError -> forall ms2 x d f p, part ms a ms2 x -> log_model ms2 = true -> model_at ms2 x d f p -> gd_get streq fs2 p <> None).
  Proof.
    intros HL fs fs2 r E. unfold Experiments.exit_exp in E. destruct (exit_members ms fs a) as [fs1 r1] eqn:E1.
    destruct (members_leave a ms HL _ _ _ E1) as (A1 & S1 & N1).
    assert (W1 : adds (part ms a) fs fs1).
    { eapply adds_weaken; [|exact A1]. intros ms2 x (m & Hm & Hp). destruct m as [f|n req k p t [[ms' inh]|]]; [destruct Hp| |destruct Hp].
      destruct Hp as (y & E2 & E3 & E4). eapply PartIn; eassumption. }
    destruct r1 as [[]|e].
    - pose proof (self_adds _ _ _ _ _ E) as A2. split.
      + eapply adds_trans; [exact W1|]. eapply adds_weaken; [|exact A2]. intros m x [-> ->]. constructor.
      + intros Hr ms2 x d f p HP Hl Ha. inversion HP as [|? ? n req k q t ms' inh y ? ? I1 I2 I3 I4]; subst.
        * exact (self_saves _ _ _ _ _ d f p E Hr Hl Ha).
        * eapply adds_keeps; [exact A2|]. refine (S1 eq_refl _ ms2 x d f p I1 _ Hl Ha). exists y. now repeat split.
    - injection E as <- <-. split; [exact W1|]. intros [Hr|Hr]; [discriminate|]. injection Hr as ->. congruence.
  Qed.
  Lemma all_leave : forall m, leaves_by m.
  Proof.
    apply member_nested.
    - intros f fs a fs2 r E. injection E as <- <-. split; [apply adds_refl|]. split; [intros _ ms x d f' p []|discriminate].
    - intros n req k p t fs a fs2 r E. injection E as <- <-. split; [apply adds_refl|]. split; [intros _ ms x d f' q []|discriminate].
    - intros n req k p t ms inh IH fs a fs2 r E.
      assert (NO : (forall x, gd_get streq a n <> Some (SInst x)) \/ experiment ms inh = false ->
        exit_member (MStruct n req k p t (Some (ms, inh))) fs a = (fs, Ok tt)).
      { intros H. cbn [Experiments.exit_member]. destruct (gd_get streq a n) as [[v|x]|]; [reflexivity| |reflexivity].
        destruct H as [H|H]; [now destruct (H x)|now rewrite H]. }
      destruct (gd_get streq a n) as [[v|x]|] eqn:En.
      1,3: rewrite NO in E by (left; discriminate); injection E as <- <-; split; [apply adds_refl|]; split; [|discriminate];
        intros _ ms2 x' d f q (x0 & _ & H & _); congruence.
      destruct (experiment ms inh) eqn:Ex.
      + rewrite (exit_member_struct _ _ _ _ _ _ _ _ _ _ En Ex) in E. destruct (exit_exp ms fs x) as [fs' r'] eqn:EE.
        injection E as <- <-. destruct (exit_leaves ms x IH _ _ _ EE) as (A & S). split; [|split].
        * eapply adds_weaken; [|exact A]. intros ms2 y H. exists x. now repeat split.
        * intros Hr ms2 y d f q (x0 & _ & H & HP) Hl Ha. assert (x0 = x) by congruence. subst x0.
          apply (S) with (ms2 := ms2) (x := y) (d := d) (f := f); [|exact HP|exact Hl|exact Ha].
          destruct r' as [[]|[]]; try discriminate; [now left|now right].
        * destruct r' as [[]|[]]; discriminate.
      + rewrite NO in E by now right. injection E as <- <-. split; [apply adds_refl|]. split; [|discriminate].
        intros _ ms2 y d f q (x0 & H & _). congruence.
  Qed.

  (** Leaving changes no file; it adds models of its parts. *)
  Theorem exit_adds ms fs a fs2 r : exit_exp ms fs a = (fs2, r) -> forall q,
    gd_get streq fs2 q = gd_get streq fs q \/
    (gd_get streq fs q = None /\ exists ms2 x m, part ms a ms2 x /\ log_model ms2 = true /\ model_file_path ms2 x = Ok q /\
       self_attr x "_model" = Ok m /\ gd_get streq fs2 q = Some (dump m)).
  Proof. intros E. exact (proj1 (exit_leaves ms a (fun m _ => all_leave m) _ _ _ E)). Qed.
  Theorem exit_saves ms fs a fs2 : exit_exp ms fs a = (fs2, Ok tt) -> forall ms2 x d f p,
    part ms a ms2 x -> log_model ms2 = true -> model_at ms2 x d f p -> gd_get streq fs2 p <> None.
  Proof. intros E. exact (proj2 (exit_leaves ms a (fun m _ => all_leave m) _ _ _ E) (or_introl eq_refl)). Qed.

  (** ** Loading *)
  Theorem load_has call ms fs a m : get_value a (lit "_model") = Some m -> load_model call ms fs a = (fs, a, Ok m).
  Proof. intros H. apply value_attr in H. unfold Experiments.load_model. now rewrite H. Qed.
  Theorem load_file call ms fs a d f p t : model_at ms a d f p -> no_model a -> log_model ms = true -> gd_get streq fs p = Some t ->
    load_model call ms fs a = (fs, a, undump t).
  Proof.
    intros HL Hn Hl Hp. destruct (model_path _ _ _ _ _ HL) as (L2 & L3). unfold Experiments.load_model. rewrite (no_model_attr _ Hn), Hl.
    unfold Experiments.model_exists. rewrite L3. unfold gd_mem. rewrite Hp. cbn [bind]. now rewrite Hp.
  Qed.
  Theorem load_none call ms fs a s : no_model a -> log_model ms = false -> nested_string ms a = Ok s ->
    load_model call ms fs a = (fs, a, Err NotImplementedError).
  Proof. intros Hn Hl Hs. unfold Experiments.load_model. now rewrite (no_model_attr _ Hn), Hl, Hs. Qed.
  (** the experiment runs, entered, and its model is saved and given *)
  Theorem load_runs call ms fs a d f p base : model_at ms a d f p -> no_model a -> log_model ms = true -> gd_get streq fs p = None ->
    ready experiment [] ms a -> get_value a (lit "base_dir") = Some (VStr base) ->
    exists b, entered experiment ms b /\ kept_all experiment ms [] a b /\ forall fs1 a1 v, call fs b = (fs1, a1, Ok v) ->
      (forall m fs2, get_value a1 (lit "_model") = Some m -> exit_exp ms fs1 a1 = (fs2, Ok tt) -> load_model call ms fs a = (fs2, a1, Ok m)) /\
      (forall fs2 e, exit_exp ms fs1 a1 = (fs2, Err e) -> load_model call ms fs a = (fs2, a1, Err e)).
  Proof.
    intros HL Hn Hl Hp HR Hb. destruct (model_path _ _ _ _ _ HL) as (L2 & L3).
    destruct (enter_ok experiment ms a base HR Hb) as (b & B1 & B2 & B3 & B4 & B5). exists b. split; [exact B2|]. split; [exact B3|].
    intros fs1 a1 v Hc.
    assert (LR : load_model call ms fs a = match run_exp call ms fs a with
      | (fs, a, Err e) => (fs, a, Err e) | (fs, a, Ok _) => (fs, a, self_attr a "_model") end).
    { unfold Experiments.load_model. rewrite (no_model_attr _ Hn), Hl. unfold Experiments.model_exists. rewrite L3. unfold gd_mem. now rewrite Hp. }
    rewrite LR. unfold Experiments.run_exp. rewrite B1, Hc. split.
    - intros m fs2 Hm He. rewrite He. apply value_attr in Hm. now rewrite Hm.
    - intros fs2 e He. now rewrite He.
  Qed.
  (** running gives the instance to the call as it is entered *)
  Theorem run_ok call ms fs a base : ready experiment [] ms a -> get_value a (lit "base_dir") = Some (VStr base) ->
    exists b, entered experiment ms b /\ kept_all experiment ms [] a b /\ nested_string ms b = nested_string ms a /\
      forall fs1 a1 r fs2, call fs b = (fs1, a1, r) -> exit_exp ms fs1 a1 = (fs2, Ok tt) -> run_exp call ms fs a = (fs2, a1, r).
  Proof.
    intros HR Hb. destruct (enter_ok experiment ms a base HR Hb) as (b & B1 & B2 & B3 & B4 & B5).
    exists b. split; [exact B2|]. split; [exact B3|]. split; [exact B5|]. intros fs1 a1 r fs2 Hc He. unfold Experiments.run_exp. now rewrite B1, Hc, He.
  Qed.
  (** instances of a class in a directory that share the file of the model have the same fields *)
  Theorem same_model literal_eval uninumeric is_float : evaluates literal_eval -> forall ms base a b p d1 d2 f1 f2,
    nested_ok literal_eval uninumeric is_float ms a -> nested_ok literal_eval uninumeric is_float ms b ->
    NoDup (all_names ms) -> ~ In (lit "base_dir") (all_names ms) -> normal_dir base ->
    get_value a (lit "base_dir") = Some (VStr base) -> get_value b (lit "base_dir") = Some (VStr base) ->
    model_at ms a d1 f1 p -> model_at ms b d2 f2 p -> alike ms a b.
  Proof. intros HE ms base a b p d1 d2 f1 f2. exact (same_log literal_eval uninumeric is_float HE (LogClass ms true (model_file ms)) base a b p d1 d2 f1 f2). Qed.
End models.
