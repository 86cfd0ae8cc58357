(** The log of a Structure. *)
From Verif Require Import Proofs.DictFacts Proofs.PyFacts Proofs.ParamsFacts Proofs.StrFacts Proofs.StructuresFacts Proofs.StructuresRead
  Proofs.StructuresTop Proofs.NestedFacts Proofs.NestedRead Proofs.NestedTop Proofs.RecordsFacts Spec.StructLogsSpec.
Open Scope Z_scope.

Lemma value_attr a n v : get_value a (lit n) = Some v -> self_attr a n = Ok v.
Proof.
  unfold get_value, get_attr, self_attr, attribute. destruct (gd_get streq (own_attrs a) (lit n)) as [[w|]|]; congruence.
Qed.
Lemma no_data_attr a : no_data a -> self_attr a "_data" = Err AttributeError.
Proof. unfold no_data, self_attr, attribute. now intros ->. Qed.

Lemma own_set (x : sattrs) n u m : gd_get streq (own_attrs (gd_set streq x n (SVal u))) m =
  if streq n m then Some u else gd_get streq (own_attrs x) m.
Proof.
  induction x as [|[k y] x IH]; cbn [gd_set].
  - cbn. reflexivity.
  - destruct (streq k n) eqn:E.
    + apply streq_spec in E. subst k. destruct y as [o|y]; cbn; destruct (streq n m); reflexivity.
    + destruct y as [o|y]; cbn; [|exact IH]. destruct (streq k m) eqn:Ek; [|exact IH].
      apply streq_spec in Ek. subst m. destruct (streq n k) eqn:E2; [|reflexivity]. apply streq_spec in E2. subst k. now rewrite streq_refl in E.
Qed.

Section facts.
  Variable to_csv : pval -> option pystr.
  Variable read_csv : pystr -> result pval.
  Notation save_data := (save_data to_csv).
  Notation load_data := (load_data read_csv).

  Lemma logs_path c a d f p : logs_to c a d f p ->
    loggable c = true /\ log_path (l_members c) a = Ok d /\ log_file_path c a = Ok p.
  Proof.
    intros (H1 & H2 & _ & _ & b & s & Hb & Hs & -> & _ & ->). apply value_attr in Hb.
    unfold loggable, log_file_path, log_path. rewrite H1, H2, Hb. cbn [bind]. rewrite Hs. now cbn [bind].
  Qed.
  Lemma ends_not_dir d f : f <> [] -> ~ In slash f -> is_directory (path_join2 d f) = false.
  Proof.
    intros Hf Hs. unfold is_directory, path_split, path_join2.
    assert (S1 : starts_with slash f = false).
    { destruct f as [|c f]; [reflexivity|]. cbn. apply Z.eqb_neq. intros ->. apply Hs. now left. }
    rewrite S1.
    assert (HC : forall e, snd (cut_last slash (e ++ f)) = f \/ exists x, x <> [] /\ snd (cut_last slash (e ++ f)) = x ++ f).
    { assert (H0 : cut_last slash f = ([], f)).
      { clear Hf S1. induction f as [|c f IH]; [reflexivity|]. cbn [cut_last]. rewrite IH by (intros H; apply Hs; now right).
        destruct (c =? slash) eqn:E; [|reflexivity]. apply Z.eqb_eq in E. subst c. exfalso. apply Hs. now left. }
      induction e as [|x e IH]; [left; cbn [app]; now rewrite H0|]. cbn [app cut_last].
      destruct (cut_last slash (e ++ f)) as [h t]. cbn [snd] in IH. destruct h as [|y h]; [|cbn [snd]; exact IH].
      destruct (x =? slash); cbn [snd]; [exact IH|]. right. destruct IH as [->|(z & Z1 & ->)].
      - exists [x]. split; [discriminate|reflexivity].
      - exists (x :: z). split; [discriminate|reflexivity]. }
    assert (HD : forall e, match snd (cut_last slash (e ++ f)) with [] => true | _ => false end = false).
    { intros e. destruct (HC e) as [->|(x & X1 & ->)]; [destruct f; [congruence|reflexivity]|]. destruct x; [congruence|reflexivity]. }
    assert (HE : forall q, snd (let '(h, t) := cut_last slash q in (if forallb (Z.eqb slash) h then h else rstrip_char slash h, t)) = snd (cut_last slash q)).
    { intros q. now destruct (cut_last slash q). }
    rewrite HE. destruct d as [|x d]; [apply (HD [])|]. destruct (ends_with slash (x :: d)); [apply HD|].
    rewrite app_assoc. apply HD.
  Qed.

  (** ** Saving *)
  Theorem saved c fs a d f p v t : logs_to c a d f p -> get_value a (lit "_data") = Some v -> to_csv v = Some t ->
    gd_get streq fs d = None -> gd_get streq fs p = None ->
    exists fs2, save_data c fs a None = (fs2, Ok (Some p)) /\ gd_get streq fs2 p = Some (log_text p t) /\
      (forall q, q <> p -> gd_get streq fs2 q = gd_get streq fs q) /\
      forall x, save_data c fs2 a x = (fs2, Ok None).
  Proof.
    intros HL Hv Ht Hd Hp. destruct (logs_path _ _ _ _ _ HL) as (L1 & L2 & L3). apply value_attr in Hv.
    destruct HL as (_ & _ & F1 & F2 & b & s & _ & _ & _ & D1 & P1).
    exists (gd_set streq fs p (log_text p t)).
    assert (M : gd_mem streq fs p = false) by (unfold gd_mem; now rewrite Hp).
    assert (M2 : gd_mem streq fs d = false) by (unfold gd_mem; now rewrite Hd).
    split; [|split; [|split]].
    - unfold StructLogs.save_data, log_exists. rewrite L1, Hv, L3. cbn [negb bind]. rewrite M, L2. cbn [bind].
      unfold makedirs. destruct d as [|y d]; [congruence|]. rewrite M2. cbn [bind].
      replace (is_directory p) with false by (symmetry; rewrite P1; now apply ends_not_dir). rewrite Ht.
      unfold log_text. now rewrite <- !app_assoc.
    - now rewrite (get_set streq streq_spec), streq_refl.
    - intros q Hq. rewrite (get_set streq streq_spec), streq_ne by congruence. reflexivity.
    - intros x. unfold StructLogs.save_data, log_exists. rewrite L1, Hv, L3. cbn [negb bind].
      unfold gd_mem. rewrite (get_set streq streq_spec), streq_refl. now destruct x.
  Qed.

  (** whatever is saved, only the log itself changes, and only if it was not there *)
  Theorem save_keeps c fs a x fs2 r : save_data c fs a x = (fs2, r) -> forall q,
    gd_get streq fs2 q = gd_get streq fs q \/ (gd_get streq fs q = None /\ log_file_path c a = Ok q).
  Proof.
    intros E q.
    assert (HH : fs2 = fs \/ exists p t, log_file_path c a = Ok p /\ gd_get streq fs p = None /\ fs2 = gd_set streq fs p t).
    { unfold StructLogs.save_data in E. destruct (negb (loggable c)) eqn:L; [injection E as <- _; now left|].
      apply negb_false_iff in L. unfold log_exists in E. rewrite L in E.
      assert (GO : forall own fs' r', match (do p <- log_file_path c a; Ok (gd_mem streq fs p)) with
          | Err e => (fs, Err e)
          | Ok true => (fs, Ok None)
          | Ok false =>
              match (do d <- log_path (l_members c) a; do _ <- makedirs fs d; log_file_path c a) with
              | Err e => (fs, Err e)
              | Ok p =>
                  if is_directory p then (fs, Err OSError)
                  else
                    let top := lit "# " ++ p ++ [nl] in
                    match own with
                    | Err e => (gd_set streq fs p top, Err e)
                    | Ok v =>
                        match to_csv v with
                        | None => (gd_set streq fs p top, Err AttributeError)
                        | Some t => (gd_set streq fs p (top ++ t), Ok (Some p))
                        end
                    end
              end
          end = (fs', r') -> fs' = fs \/ exists p t, log_file_path c a = Ok p /\ gd_get streq fs p = None /\ fs' = gd_set streq fs p t).
      { clear. intros own fs' r' E. destruct (log_file_path c a) as [p|] eqn:Ep; cbn [bind] in E; [|injection E as <- _; now left].
        unfold gd_mem in E at 1. destruct (gd_get streq fs p) as [old|] eqn:Eo; [injection E as <- _; now left|].
        destruct (log_path (l_members c) a) as [d|]; cbn [bind] in E; [|injection E as <- _; now left].
        destruct (makedirs fs d) as [u|]; cbn [bind] in E; [|injection E as <- _; now left].
        destruct (is_directory p); [injection E as <- _; now left|]. cbv zeta in E.
        destruct own as [v|]; [destruct (to_csv v)|]; injection E as <- _; right; eauto 8. }
      destruct x as [v|]; [exact (GO (self_attr a "_data") _ _ E)|]. destruct (self_attr a "_data") as [v|]; [exact (GO (Ok v) _ _ E)|]. injection E as <- _. now left. }
    destruct HH as [->|(p & t & H1 & H2 & ->)]; [now left|]. destruct (streq p q) eqn:Eq.
    - apply streq_spec in Eq. subst q. right. now split.
    - left. rewrite (get_set streq streq_spec). now rewrite Eq.
  Qed.

  (** data that are passed and not set before *)
  Theorem save_given c fs a d f p v : logs_to c a d f p -> no_data a -> gd_get streq fs d = None -> gd_get streq fs p = None ->
    exists fs2, save_data c fs a (Some v) = (fs2, Err AttributeError) /\ gd_get streq fs2 p = Some (log_text p []) /\
      forall x b, logs_to c b d f p -> (x <> None \/ exists w, get_value b (lit "_data") = Some w) -> save_data c fs2 b x = (fs2, Ok None).
  Proof.
    intros HL Hn Hd Hp. destruct (logs_path _ _ _ _ _ HL) as (L1 & L2 & L3). apply no_data_attr in Hn.
    destruct HL as (_ & _ & F1 & F2 & b & s & _ & _ & _ & D1 & P1).
    exists (gd_set streq fs p (log_text p [])).
    assert (M : gd_mem streq fs p = false) by (unfold gd_mem; now rewrite Hp).
    assert (M2 : gd_mem streq fs d = false) by (unfold gd_mem; now rewrite Hd).
    split; [|split].
    - unfold StructLogs.save_data, log_exists. rewrite L1, Hn, L3. cbn [negb bind]. rewrite M, L2. cbn [bind].
      unfold makedirs. destruct d as [|y d]; [congruence|]. rewrite M2. cbn [bind].
      replace (is_directory p) with false by (symmetry; rewrite P1; now apply ends_not_dir).
      unfold log_text. now rewrite app_nil_r.
    - now rewrite (get_set streq streq_spec), streq_refl.
    - intros x b' HL' Hx. destruct (logs_path _ _ _ _ _ HL') as (L1' & L2' & L3'). unfold StructLogs.save_data, log_exists. rewrite L1', L3'. cbn [negb bind].
      unfold gd_mem. rewrite (get_set streq streq_spec), streq_refl. destruct x as [w|]; [reflexivity|]. destruct Hx as [Hx|(w & Hw)]; [congruence|].
      apply value_attr in Hw. now rewrite Hw.
  Qed.
  (** data that are passed are not what is written *)
  Theorem save_other c fs a w : (exists v, get_value a (lit "_data") = Some v) -> save_data c fs a (Some w) = save_data c fs a None.
  Proof. intros (v & Hv). apply value_attr in Hv. unfold StructLogs.save_data. now rewrite Hv. Qed.

  (** ** Loading *)
  Lemma exists_at c fs a d f p t : logs_to c a d f p -> gd_get streq fs p = Some t -> log_exists c fs a = Ok true.
  Proof.
    intros HL Hp. destruct (logs_path _ _ _ _ _ HL) as (L1 & L2 & L3). unfold log_exists. rewrite L1, L3. cbn [bind]. unfold gd_mem. now rewrite Hp.
  Qed.
  (** the class has a base_path, and it is where the log lies *)
  Theorem loaded c fs a d f p t v : logs_to c a d f p -> no_data a -> get_value a (lit "base_path") = Some (VStr d) ->
    gd_get streq fs p = Some t -> read_csv t = Ok v ->
    exists a2, load_data c fs a None = (a2, Ok v) /\ get_value a2 (lit "_data") = Some v.
  Proof.
    intros HL Hn Hb Hp Hr. pose proof (exists_at _ _ _ _ _ _ _ HL Hp) as HX. destruct (logs_path _ _ _ _ _ HL) as (L1 & L2 & L3).
    apply no_data_attr in Hn. apply value_attr in Hb. destruct HL as (_ & F0 & F1 & F2 & b & s & _ & _ & _ & D1 & P1).
    eexists. split.
    - unfold StructLogs.load_data. rewrite Hn, L1, HX, Hb. cbn [negb bind]. rewrite F0. unfold read_log. cbn [bind]. rewrite <- P1, Hp, Hr. reflexivity.
    - unfold get_value, get_attr.
      now rewrite own_set, streq_refl.
  Qed.
  (** without base_path there is nothing to load from *)
  Theorem not_loaded c fs a d f p t : logs_to c a d f p -> no_data a -> gd_get streq (own_attrs a) (lit "base_path") = None ->
    gd_get streq fs p = Some t -> load_data c fs a None = (a, Err AttributeError).
  Proof.
    intros HL Hn Hb Hp. pose proof (exists_at _ _ _ _ _ _ _ HL Hp) as HX. destruct (logs_path _ _ _ _ _ HL) as (L1 & L2 & L3).
    apply no_data_attr in Hn. unfold StructLogs.load_data. rewrite Hn, L1, HX. cbn [negb].
    unfold self_attr, attribute. now rewrite Hb.
  Qed.
  (** with base_dir, it is the file at the top that is loaded, if the log of the instance is there *)
  Theorem loaded_top c fs a b d f p t : b <> [] -> let a2 := gd_set streq a (lit "base_dir") (SVal (Some (VStr b))) in
    logs_to c a2 d f p -> no_data a -> gd_get streq fs p = Some t ->
    snd (load_data c fs a (Some b)) = match gd_get streq fs (path_join2 b f) with Some u => read_csv u | None => Err OSError end.
  Proof.
    intros Hb a2 HL Hn Hp. pose proof (exists_at _ _ _ _ _ _ _ HL Hp) as HX. destruct (logs_path _ _ _ _ _ HL) as (L1 & L2 & L3).
    destruct HL as (_ & F0 & F1 & F2 & b' & s & _ & _ & _ & D1 & P1).
    destruct b as [|x b]; [congruence|]. unfold StructLogs.load_data. fold a2.
    assert (N2 : self_attr a2 "_data" = Err AttributeError).
    { apply no_data_attr. unfold no_data, a2. rewrite own_set. exact Hn. }
    rewrite N2, L1, HX. cbn [negb bind]. rewrite F0. unfold read_log. cbn [bind].
    destruct (gd_get streq fs (path_join2 (x :: b) f)) as [u|]; [|reflexivity]. now destruct (read_csv u).
  Qed.

  Theorem data_ok c fs a run :
    (forall v, get_value a (lit "_data") = Some v -> data read_csv run c fs a = (fs, a, Ok v)) /\
    (no_data a -> forall d f p, logs_to c a d f p -> gd_get streq fs p = None -> data read_csv run c fs a = run fs a) /\
    (no_data a -> forall d f p t, logs_to c a d f p -> gd_get streq fs p = Some t -> gd_get streq (own_attrs a) (lit "base_path") = None ->
       data read_csv run c fs a = (fs, a, Err AttributeError)).
  Proof.
    unfold data. split; [|split].
    - intros v Hv. apply value_attr in Hv. now rewrite Hv.
    - intros Hn d f p HL Hp. destruct (logs_path _ _ _ _ _ HL) as (L1 & L2 & L3). apply no_data_attr in Hn. rewrite Hn.
      unfold log_exists. rewrite L1, L3. cbn [bind]. unfold gd_mem. now rewrite Hp.
    - intros Hn d f p t HL Hp Hb. rewrite (no_data_attr _ Hn), (exists_at _ _ _ _ _ _ _ HL Hp).
      now rewrite (not_loaded _ _ _ _ _ _ _ HL Hn Hb Hp).
  Qed.
End facts.
