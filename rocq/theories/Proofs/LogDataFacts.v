(** C74: log files written and read. *)
From Coq Require Import Permutation Sorted.
From Verif Require Import Model.LogData Spec.LogSpec Proofs.StrFacts Proofs.DictFacts Proofs.StructuresMore Proofs.ParamsFacts Proofs.UtilNamesFacts Proofs.PathFacts.
Open Scope Z_scope.

Lemma lines_aux_body cur body rest : ~ In 10 body ->
  lines_aux cur (body ++ 10 :: rest) = (rev cur ++ body ++ [10]) :: lines_aux [] rest.
Proof.
  revert cur. induction body as [|c body IH]; intros cur N; cbn [app lines_aux].
  - unfold nl. rewrite Z.eqb_refl. cbn [rev]. reflexivity.
  - unfold nl at 1. destruct (Z.eqb_spec c 10) as [->|Hc]; [exfalso; apply N; now left|].
    rewrite IH; [|intros H; apply N; now right]. cbn [rev]. now rewrite <- app_assoc.
Qed.

Lemma universal_id s : ~ In 13 s -> universal s = s.
Proof.
  induction s as [|c s IH]; intros N; [reflexivity|]. cbn [universal].
  destruct (Z.eqb_spec c 13) as [->|Hc]; [exfalso; apply N; now left|].
  rewrite IH; [reflexivity|intros H; apply N; now right].
Qed.

Lemma line_no_cr l : is_line l -> ~ In 13 l.
Proof.
  intros (b & -> & N & M) H. apply in_app_or in H as [H|[H|[]]]; [exact (M H)|discriminate].
Qed.

Lemma lines_concat ls : Forall is_line ls -> text_lines (concat ls) = ls.
Proof.
  intros H. unfold text_lines. rewrite universal_id.
  - induction H as [|l ls (b & -> & N & M) H IH]; [reflexivity|]. cbn [concat].
    rewrite <- app_assoc. cbn [app]. rewrite lines_aux_body by exact N. cbn [rev app]. now rewrite IH.
  - intros I. apply in_concat in I as (l & Hl & Hc). rewrite Forall_forall in H.
    exact (line_no_cr _ (H _ Hl) Hc).
Qed.

Section S.
  Variable uspace : Z -> bool.
  Notation space := (space uspace).
  Notation words := (words uspace).
  Notation wordy := (wordy uspace).
  Notation blank := (blank uspace).
  Notation reads := (reads uspace).
  Notation strip_s := (strip_s uspace).
  Notation lstrip_s := (lstrip_s uspace).
  Notation trims := (trims uspace).

  Lemma words_blank g s : blank g -> words_aux uspace [] (g ++ s) = words_aux uspace [] s.
  Proof.
    induction g as [|c g IH]; intros B; [reflexivity|]. cbn [app words_aux].
    rewrite (B c (or_introl eq_refl)). apply IH. intros d H. apply B. now right.
  Qed.

  Lemma words_word w : forall cur s, (forall c, In c w -> space c = false) ->
    words_aux uspace cur (w ++ s) = words_aux uspace (rev w ++ cur) s.
  Proof.
    induction w as [|c w IH]; intros cur s N; [reflexivity|]. cbn [app words_aux rev].
    rewrite (N c (or_introl eq_refl)), IH, <- app_assoc; [reflexivity|]. intros d H. apply N. now right.
  Qed.

  Lemma reads_words ws l : reads ws l -> words l = ws.
  Proof.
    unfold LogData.words. induction 1 as [g B|g w B [W N]|g w c rest ws B [W N] C R IH].
    - rewrite <- (app_nil_r g). now rewrite words_blank.
    - rewrite words_blank by exact B. rewrite <- (app_nil_r w), words_word by exact N. cbn [words_aux].
      rewrite app_nil_r. destruct w as [|a w]; [easy|].
      destruct (rev (a :: w)) as [|x y] eqn:E.
      + apply (f_equal (@length Z)) in E. rewrite rev_length in E. discriminate.
      + rewrite <- E, rev_involutive. now rewrite app_nil_r.
    - rewrite words_blank by exact B. rewrite words_word by exact N. cbn [words_aux].
      cbn [words_aux] in IH. rewrite C in *. rewrite app_nil_r. destruct w as [|a w]; [easy|].
      destruct (rev (a :: w)) as [|x y] eqn:E.
      + apply (f_equal (@length Z)) in E. rewrite rev_length in E. discriminate.
      + rewrite <- E, rev_involutive. now rewrite IH.
  Qed.

  Lemma words_reads_aux : forall s cur, (forall c, In c cur -> space c = false) ->
    match cur with
    | [] => reads (words_aux uspace [] s) s
    | _ => reads (words_aux uspace cur s) (rev cur ++ s)
    end.
  Proof.
    induction s as [|c s IH]; intros cur N.
    - destruct cur as [|a cur]; [constructor; intros c []|]. cbn [words_aux]. rewrite app_nil_r.
      apply (reads_last _ []); [intros ? []|]. split.
      + intros E. apply (f_equal (@length Z)) in E. rewrite rev_length in E. discriminate.
      + intros d H. apply N. now apply in_rev.
    - cbn [words_aux]. destruct (space c) eqn:C.
      + pose proof (IH [] (fun d (H : In d []) => match H with end)) as R. cbn beta iota in R.
        assert (R' : reads (words_aux uspace [] s) (c :: s)).
        { inversion R; subst.
          - constructor. intros d [<-|H']; [exact C|auto].
          - apply (reads_last _ (c :: g)); [|assumption]. intros d [<-|H']; [exact C|auto].
          - apply (reads_more _ (c :: g)); try assumption. intros d [<-|H']; [exact C|auto]. }
        destruct cur as [|a cur]; [exact R'|].
        change (rev (a :: cur) ++ c :: s) with ([] ++ rev (a :: cur) ++ c :: s).
        constructor; [intros ? []| |exact C|exact R']. split.
        * intros E. apply (f_equal (@length Z)) in E. rewrite rev_length in E. discriminate.
        * intros d H. apply N. now apply in_rev.
      + assert (N' : forall d, In d (c :: cur) -> space d = false) by (intros d [<-|H]; auto).
        specialize (IH (c :: cur) N'). cbn beta iota in IH. cbn [rev] in IH. rewrite <- app_assoc in IH.
        destruct cur; exact IH.
  Qed.

  Lemma words_reads l : reads (words l) l.
  Proof. exact (words_reads_aux l [] (fun d (H : In d []) => match H with end)). Qed.

  Lemma reads_iff ws l : reads ws l <-> words l = ws.
  Proof. split; [apply reads_words|]. intros <-. apply words_reads. Qed.

  Lemma lstrip_split s : exists g, blank g /\ s = g ++ lstrip_s s.
  Proof.
    induction s as [|c s (g & B & E)]; [exists []; split; [intros ? []|reflexivity]|]. cbn [LogData.lstrip_s].
    destruct (space c) eqn:C.
    - exists (c :: g). split; [|cbn; now f_equal]. intros d [<-|H]; auto.
    - exists []. split; [intros ? []|reflexivity].
  Qed.
  Lemma lstrip_head s c t : lstrip_s s = c :: t -> space c = false.
  Proof.
    induction s as [|a s IH]; cbn [LogData.lstrip_s]; [discriminate|]. destruct (space a) eqn:A; [exact IH|].
    intros [= -> ->]. exact A.
  Qed.
  Lemma lstrip_blank g s : blank g -> lstrip_s (g ++ s) = lstrip_s s.
  Proof.
    induction g as [|c g IH]; intros B; [reflexivity|]. cbn [app LogData.lstrip_s].
    rewrite (B c (or_introl eq_refl)). apply IH. intros d H. apply B. now right.
  Qed.
  Lemma blank_rev g : blank g -> blank (rev g).
  Proof. intros B c H. apply B. now apply in_rev. Qed.

  Lemma trims_strip s : trims s (strip_s s).
  Proof.
    unfold LogData.strip_s. destruct (lstrip_split s) as (g & B & E).
    destruct (lstrip_split (rev (lstrip_s s))) as (h & B' & E').
    assert (E2 : lstrip_s s = rev (lstrip_s (rev (lstrip_s s))) ++ rev h).
    { rewrite <- rev_app_distr, <- E', rev_involutive. reflexivity. }
    split.
    - exists g, (rev h). split; [exact B|]. split; [now apply blank_rev|]. rewrite <- E2. exact E.
    - destruct (rev (lstrip_s (rev (lstrip_s s)))) as [|c t] eqn:T; [exact I|]. split.
      + cbn [app] in E2. exact (lstrip_head _ _ _ E2).
      + apply (f_equal (@rev Z)) in T. rewrite rev_involutive in T.
        destruct (rev (c :: t)) as [|d u] eqn:R.
        { apply (f_equal (@length Z)) in R. rewrite rev_length in R. discriminate. }
        pose proof (lstrip_head _ _ _ T) as L.
        apply (f_equal (@rev Z)) in R. rewrite rev_involutive in R. rewrite R. cbn [rev]. rewrite last_last. exact L.
  Qed.

  Lemma trims_fun s t : trims s t -> strip_s s = t.
  Proof.
    intros [(g & h & B & B' & ->) M]. unfold LogData.strip_s. rewrite lstrip_blank by exact B.
    destruct t as [|c t].
    - cbn [app]. assert (E : lstrip_s h = []) by (rewrite <- (app_nil_r h), lstrip_blank; [reflexivity|exact B']).
      rewrite E. reflexivity.
    - destruct M as [M1 M2]. cbn [app LogData.lstrip_s]. rewrite M1.
      change (c :: t ++ h) with ((c :: t) ++ h). rewrite rev_app_distr, lstrip_blank by now apply blank_rev.
      assert (N : c :: t <> []) by discriminate. destruct (exists_last N) as (u & d & E). rewrite E in *.
      rewrite last_last in M2. rewrite rev_app_distr. cbn [rev app LogData.lstrip_s]. rewrite M2.
      change (d :: rev u) with ([d] ++ rev u). cbn [rev app]. now rewrite rev_involutive.
  Qed.

  Lemma trims_iff s t : trims s t <-> strip_s s = t.
  Proof. split; [apply trims_fun|]. intros <-. apply trims_strip. Qed.

  Lemma trims_pad g s h t : blank g -> blank h -> trims s t -> trims (g ++ s ++ h) t.
  Proof.
    intros B B' [(g1 & h1 & B1 & B1' & ->) M]. split; [|exact M].
    exists (g ++ g1), (h1 ++ h). split; [|split].
    - intros c H. apply in_app_or in H as [H|H]; auto.
    - intros c H. apply in_app_or in H as [H|H]; auto.
    - now rewrite !app_assoc.
  Qed.

  (** ** Reading *)

  Lemma indices_get : forall l i d k,
    gd_get streq (indices_from i l d) k =
    match gd_get streq (indices_from i l []) k with Some j => Some j | None => gd_get streq d k end.
  Proof.
    induction l as [|h l IH]; intros i d k; [reflexivity|]. cbn [indices_from].
    rewrite IH, (IH (S i) (gd_set streq [] h i)). cbn [gd_set]. destruct (gd_get streq (indices_from (S i) l []) k); [reflexivity|].
    rewrite (get_set streq streq_spec). cbn [gd_get]. destruct (streq h k); reflexivity.
  Qed.

  Lemma indices_none : forall l i k, ~ In k l -> gd_get streq (indices_from i l []) k = None.
  Proof.
    induction l as [|h l IH]; intros i k N; [reflexivity|]. cbn [indices_from]. rewrite indices_get.
    rewrite IH by (intros H; apply N; now right). cbn [gd_set gd_get].
    rewrite (keq_false streq streq_spec); [reflexivity|]. intros ->. apply N. now left.
  Qed.

  Lemma indices_nth : forall l i j k, NoDup l -> nth_error l j = Some k ->
    gd_get streq (indices_from i l []) k = Some (i + j)%nat.
  Proof.
    induction l as [|h l IH]; intros i j k ND H; [destruct j; discriminate|]. inversion ND as [|? ? Nh ND']; subst.
    cbn [indices_from]. rewrite indices_get. destruct j as [|j]; cbn [nth_error] in H.
    - injection H as ->. rewrite indices_none by exact Nh. cbn [gd_set gd_get]. rewrite (keq_refl streq streq_spec).
      now rewrite Nat.add_0_r.
    - rewrite (IH (S i) j k ND' H). now rewrite <- plus_n_Sm.
  Qed.

  (** With no clash the cleaned names never move a header. *)
  Lemma clean_ok hs : no_clash hs -> forall l d, incl l hs ->
    (forall k, In k hs -> exists j, gd_get streq d k = Some j) ->
    exists d', clean_indices l d = Ok d' /\ forall k, In k hs -> gd_get streq d' k = gd_get streq d k.
  Proof.
    intros C l. unfold clean_indices. induction l as [|h l IH]; intros d I T; [exists d; split; [reflexivity|auto]|].
    cbn [fold_left bind]. unfold gd_lookup. destruct (T h (I h (or_introl eq_refl))) as (j & Hj). rewrite Hj. cbn [bind].
    assert (E : forall k, In k hs -> gd_get streq (gd_set streq d (uclean h) j) k = gd_get streq d k).
    { intros k Hk. rewrite (get_set streq streq_spec). destruct (streq (uclean h) k) eqn:E; [|reflexivity].
      apply streq_spec in E. rewrite (C h k) in Hj; [now symmetry|apply I; now left|exact Hk|exact E]. }
    destruct (IH (gd_set streq d (uclean h) j)) as (d' & H1 & H2).
    - intros x Hx. apply I. now right.
    - intros k Hk. rewrite E by exact Hk. apply T, Hk.
    - exists d'. split; [exact H1|]. intros k Hk. rewrite H2, E by exact Hk. reflexivity.
  Qed.

  Lemma clean_spec hs : NoDup hs -> no_clash hs -> exists d, clean_indices hs (get_indices hs) = Ok d /\
    forall k j, nth_error hs j = Some k -> gd_get streq d k = Some j.
  Proof.
    intros ND C. destruct (clean_ok hs C hs (get_indices hs)) as (d & H1 & H2).
    - intros x H. exact H.
    - intros k H. apply In_nth_error in H as (j & H). exists j. unfold get_indices. now rewrite (indices_nth hs 0 j k ND H).
    - exists d. split; [exact H1|]. intros k j H. rewrite H2 by (eapply nth_error_In; exact H).
      unfold get_indices. now rewrite (indices_nth hs 0 j k ND H).
  Qed.

  Lemma pick_all (idx : list (pystr * nat)) : forall l data valid, (forall k, In k l -> gd_mem streq idx k = true) ->
    NoDup l -> (forall k, In k l -> ~ In k (map fst data)) ->
    fold_left (fun st k => let '(data, valid) := st in
                 if gd_mem streq idx k then (gd_set streq data k ([] : list pystr), valid ++ [k]) else st) l (data, valid)
    = (data ++ map (fun k => (k, [])) l, valid ++ l).
  Proof.
    induction l as [|k l IH]; intros data valid M ND Fr; [now rewrite !app_nil_r|].
    cbn [fold_left]. rewrite (M k (or_introl eq_refl)). inversion ND as [|? ? Nk ND']; subst.
    rewrite (set_fresh streq streq_spec) by (apply Fr; now left). rewrite IH.
    - cbn [map]. now rewrite <- !app_assoc.
    - intros x H. apply M. now right.
    - exact ND'.
    - intros x H. rewrite map_app, in_app_iff. cbn [map fst]. intros [H'|[<-|[]]]; [|exact (Nk H)].
      exact (Fr x (or_intror H) H').
  Qed.

  Lemma set_mid {A} (d1 d2 : list (pystr * A)) k v v' : ~ In k (map fst d1) ->
    gd_set streq (d1 ++ (k, v) :: d2) k v' = d1 ++ (k, v') :: d2.
  Proof.
    induction d1 as [|[a x] d1 IH]; intros N; cbn [app gd_set map fst] in *.
    - now rewrite (keq_refl streq streq_spec).
    - rewrite (keq_false streq streq_spec) by (intros ->; apply N; now left). rewrite IH; [reflexivity|].
      intros H. apply N. now right.
  Qed.
  Lemma get_mid {A} (d1 d2 : list (pystr * A)) k v : ~ In k (map fst d1) ->
    gd_get streq (d1 ++ (k, v) :: d2) k = Some v.
  Proof.
    induction d1 as [|[a x] d1 IH]; intros N; cbn [app gd_get map fst] in *.
    - now rewrite (keq_refl streq streq_spec).
    - rewrite (keq_false streq streq_spec) by (intros ->; apply N; now left). apply IH.
      intros H. apply N. now right.
  Qed.

  Lemma py_get_nth {A} (l : list A) i x : nth_error l i = Some x -> py_get l (Z.of_nat i) = Ok x.
  Proof.
    intros H. unfold py_get, py_index. assert (i < length l)%nat by (apply nth_error_Some; congruence).
    destruct (Z.ltb_spec (Z.of_nat i) 0); [lia|]. cbn [bind].
    destruct (Z.leb_spec 0 (Z.of_nat i)); [|lia]. destruct (Z.ltb_spec (Z.of_nat i) (Z.of_nat (length l))); [|lia].
    cbn [andb bind]. now rewrite Nat2Z.id, H.
  Qed.

  (** one row *)
  Lemma store_ok idx (pos : pystr -> nat) content : forall l pre (cols : pystr -> list pystr),
    NoDup l -> (forall k, In k l -> ~ In k (map fst pre)) ->
    (forall k, In k l -> gd_get streq idx k = Some (pos k) /\ (pos k < length content)%nat) ->
    store idx content l (pre ++ map (fun k => (k, cols k)) l) =
    Ok (pre ++ map (fun k => (k, cols k ++ [nth (pos k) content []])) l).
  Proof.
    unfold store. induction l as [|k l IH]; intros pre cols ND Fr P; [reflexivity|].
    inversion ND as [|? ? Nk ND']; subst. cbn [fold_left map bind].
    destruct (P k (or_introl eq_refl)) as [E L]. unfold gd_lookup at 2. rewrite E. cbn [bind].
    destruct (nth_error content (pos k)) as [x|] eqn:X; [|apply nth_error_None in X; lia].
    rewrite (py_get_nth _ _ _ X). cbn [bind]. unfold gd_append.
    rewrite get_mid, set_mid by (apply Fr; now left).
    assert (X2 : nth (pos k) content [] = x) by exact (nth_error_nth _ _ _ X). rewrite X2.
    specialize (IH (pre ++ [(k, cols k ++ [x])]) cols ND').
    rewrite <- !app_assoc in IH. cbn [app] in IH. apply IH.
    - intros y H. rewrite map_app, in_app_iff. cbn [map fst]. intros [H'|[<-|[]]]; [|exact (Nk H)].
      exact (Fr y (or_intror H) H').
    - intros y H. apply P. now right.
  Qed.

  Lemma store_rows idx (pos : pystr -> nat) l pre : NoDup l -> (forall k, In k l -> ~ In k (map fst pre)) ->
    forall ls cols,
    (forall k, In k l -> gd_get streq idx k = Some (pos k)) ->
    Forall (fun ws => forall k, In k l -> (pos k < length ws)%nat) (map words ls) ->
    store_all uspace idx l ls (pre ++ map (fun k => (k, cols k)) l) =
    Ok (pre ++ map (fun k => (k, cols k ++ map (fun ws => nth (pos k) ws []) (map words ls))) l).
  Proof.
    intros ND Fr ls. unfold store_all. induction ls as [|r ls IH]; intros cols P L.
    - cbn [fold_left map]. do 2 f_equal. apply map_ext. intros k. now rewrite app_nil_r.
    - cbn [fold_left map bind]. inversion L as [|? ? L1 L2]; subst.
      rewrite (store_ok idx pos (words r) l pre cols ND Fr) by (intros k H; split; [apply P, H|apply L1, H]).
      rewrite (IH (fun k => cols k ++ [nth (pos k) (words r) []]) P L2). do 2 f_equal. apply map_ext. intros k.
      now rewrite <- app_assoc.
  Qed.

  Lemma scan_file cl hl rl comments headers n :
    Forall is_line (cl ++ hl :: rl) -> Forall (fun l => exists l', l = 35 :: l') cl -> (forall l', hl <> 35 :: l') ->
    words hl <> [] ->
    scan uspace (cl ++ hl :: rl) comments headers n =
    Some (comments ++ map (fun l => strip_s (skipn 2 l)) cl, Some (words hl), (n + S (length cl))%nat).
  Proof.
    intros L C Hh W. revert comments headers n. induction cl as [|c cl IH]; intros comments headers n; cbn [app scan].
    - inversion L as [|? ? (b & E & _) _]; subst. destruct (b ++ [10]) as [|a t] eqn:E; [destruct b; discriminate|].
      assert (N : streq (a :: t) [nl] = false).
      { apply (keq_false streq streq_spec). intros E2. rewrite E2 in W. apply W. reflexivity. }
      rewrite N. assert (A : (a =? hash) = false).
      { apply Z.eqb_neq. intros ->. now apply (Hh t). }
      rewrite A. cbn [map length]. rewrite app_nil_r. do 2 f_equal. lia.
    - inversion C as [|? ? (l' & ->) C']; subst. inversion L as [|? ? _ L']; subst.
      assert (N : streq (35 :: l') [nl] = false) by reflexivity.
      rewrite N. change (35 =? hash) with true. cbv beta iota zeta. rewrite IH by assumption.
      cbn [map length]. rewrite <- app_assoc. cbn [app]. do 2 f_equal. lia.
  Qed.

  Context {F : Type} (float_of : pystr -> option F).
  Notation reads_column := (reads_column float_of).

  Lemma floats_of_spec l : match floats_of float_of l with
    | Some fs => Forall2 (fun t f => float_of t = Some f) l fs
    | None => exists t, In t l /\ float_of t = None end.
  Proof.
    induction l as [|x l IH]; cbn [floats_of]; [constructor|].
    destruct (float_of x) as [f|] eqn:E; [|exists x; split; [now left|exact E]].
    destruct (floats_of float_of l) as [fs|].
    - constructor; assumption.
    - destruct IH as (t & H & N). exists t. split; [now right|exact N].
  Qed.

  Variable gunzip : pystr -> option (list pystr).
  Notation get_log_data := (get_log_data uspace float_of gunzip).
  Notation log_file := (log_file uspace).

  Lemma file_there (fs : filesys) p t : p <> [] -> gd_get streq fs p = Some t -> file_exists fs p = true.
  Proof. intros N E. unfold file_exists, gd_mem. rewrite E. destruct p; [easy|reflexivity]. Qed.

  Lemma index_of {A} (dec : forall x y : A, {x = y} + {x <> y}) (l : list A) x : In x l ->
    exists i, nth_error l i = Some x.
  Proof. intros H. exact (In_nth_error l x H). Qed.

  Definition pos_of (hs : list pystr) (k : pystr) : nat :=
    match gd_get streq (get_indices hs) k with Some i => i | None => 0%nat end.
  Lemma pos_nth hs k i : NoDup hs -> nth_error hs i = Some k -> pos_of hs k = i.
  Proof. intros ND H. unfold pos_of, get_indices. now rewrite (indices_nth hs 0 i k ND H). Qed.

  Lemma col_spec texts : exists c, (match floats_of float_of texts with Some fs => CNum fs | None => CText texts end) = c /\
    reads_column texts c.
  Proof.
    eexists. split; [reflexivity|]. pose proof (floats_of_spec texts) as H.
    destruct (floats_of float_of texts); cbn; [exact H|split; [reflexivity|exact H]].
  Qed.

  Lemma existsb_in k l : existsb (streq k) l = true <-> In k l.
  Proof.
    rewrite existsb_exists. split.
    - intros (x & H & E). apply streq_spec in E as ->. exact H.
    - intros H. exists k. split; [exact H|now apply streq_spec].
  Qed.

  Lemma read_file fs p text comments headers rows l keep :
    gd_get streq fs p = Some text -> contains (lit "gz") p = false -> p <> [] ->
    log_file text comments headers rows -> NoDup headers -> no_clash headers ->
    Forall (fun r => (length headers <= length r)%nat) rows ->
    NoDup l -> incl l headers -> ~ In (lit "comments") l ->
    get_log_data fs p (Some l) keep =
    convert float_of ((lit "comments", comments) ::
      map (fun k => (k, map (fun r => nth (pos_of headers k) r []) rows)) l) l keep.
  Proof.
    intros G Z0 Pn (lines & cl & hl & rl & -> & -> & L & C & Hh & Hn & Rh & Rr) ND NC Len NDl Il Nc.
    unfold LogData.get_log_data. cbn [bind]. rewrite (file_there fs p _ Pn G). cbn [negb]. rewrite Z0.
    unfold open_read. rewrite G. cbn [bind]. rewrite lines_concat by exact L.
    assert (C1 : Forall (fun l => exists l', l = 35 :: l') cl).
    { clear - C. induction C as [|x y cl cs (l' & -> & _) C IH]; constructor; eauto. }
    assert (C2 : map (fun l => strip_s (skipn 2 l)) cl = comments).
    { clear - C. induction C as [|x y cl cs (l' & _ & T) C IH]; [reflexivity|]. cbn [map].
      rewrite IH. f_equal. now apply trims_fun. }
    apply reads_words in Rh. subst headers.
    rewrite (scan_file cl hl rl [] None 0 L C1 Hh Hn). rewrite C2. cbn [app].
    destruct (clean_spec (words hl) ND NC) as (d & Ed & Pd). rewrite Ed. cbn [bind].
    assert (Pos : forall k, In k l -> gd_get streq d k = Some (pos_of (words hl) k)).
    { intros k H. destruct (In_nth_error _ _ (Il k H)) as (i & Hi). rewrite (Pd k i Hi). now rewrite (pos_nth _ _ _ ND Hi). }
    unfold pick. rewrite pick_all.
    - change ([(lit "comments", comments)] ++ map (fun k => (k, [])) l) with
        ([(lit "comments", comments)] ++ map (fun k : pystr => (k, (fun _ => []) k : list pystr)) l).
      assert (Sk : skipn (0 + S (length cl)) (cl ++ hl :: rl) = rl).
      { rewrite skipn_app, skipn_all2 by lia. replace (0 + S (length cl) - length cl)%nat with 1%nat by lia. reflexivity. }
      rewrite Sk. assert (Er : map words rl = rows).
      { clear - Rr. induction Rr as [|r x rows rl R Rr IH]; [reflexivity|]. cbn [map]. rewrite IH. f_equal. now apply reads_words. }
      rewrite (store_rows d (pos_of (words hl)) l [(lit "comments", comments)] NDl) with (cols := fun _ => []).
      + cbn [bind app]. rewrite Er. reflexivity.
      + intros k H [E|[]]. cbn [fst] in E. subst k. exact (Nc H).
      + exact Pos.
      + rewrite Er. clear - Len Il ND. induction Len as [|r rows H Len IH]; constructor; [|exact IH].
        intros k Hk. destruct (In_nth_error _ _ (Il k Hk)) as (i & Hi). rewrite (pos_nth _ _ _ ND Hi).
        assert (i < length (words hl))%nat by (apply nth_error_Some; congruence). lia.
    - intros k H. unfold gd_mem. now rewrite Pos.
    - exact NDl.
    - intros k H [E|[]]. cbn [fst] in E. subst k. exact (Nc H).
  Qed.

  Lemma convert_many comments l (cols : pystr -> list pystr) keep : length l <> 1%nat -> NoDup l -> ~ In (lit "comments") l ->
    exists d, convert float_of ((lit "comments", comments) :: map (fun k => (k, cols k)) l) l keep = Ok (LDict d) /\
      map fst d = (if keep then [lit "comments"] else []) ++ l /\
      (keep = true -> gd_get streq d (lit "comments") = Some (CText comments)) /\
      forall k, In k l -> exists c, gd_get streq d k = Some c /\ reads_column (cols k) c.
  Proof.
    intros Nl ND Nc.
    set (cv := fun kv : pystr * list pystr => let '(k, col) := kv in
             if existsb (streq k) l
             then (k, match floats_of float_of col with Some fs => CNum fs | None => CText col end)
             else (k, CText col)).
    set (data := if keep then (lit "comments", comments) :: map (fun k => (k, cols k)) l
                 else gd_pop streq ((lit "comments", comments) :: map (fun k => (k, cols k)) l) (lit "comments")).
    assert (E : convert float_of ((lit "comments", comments) :: map (fun k => (k, cols k)) l) l keep = Ok (LDict (map cv data))).
    { unfold convert. destruct l as [|a [|b l]]; [reflexivity|now elim Nl|reflexivity]. }
    rewrite E. exists (map cv data). split; [reflexivity|].
    assert (Kf : forall d, map fst (map cv d) = map fst d).
    { intros d. rewrite map_map. apply map_ext. intros [k c]. cbn. destruct (existsb (streq k) l); reflexivity. }
    assert (Ed : data = (if keep then [(lit "comments", comments)] else []) ++ map (fun k => (k, cols k)) l).
    { unfold data. destruct keep; [reflexivity|]. cbn [gd_pop]. rewrite (keq_refl streq streq_spec). reflexivity. }
    assert (Kd : map fst data = (if keep then [lit "comments"] else []) ++ l).
    { rewrite Ed, map_app, map_map. cbn [fst]. rewrite map_id. now destruct keep. }
    assert (NDd : NoDup (map fst (map cv data))).
    { rewrite Kf, Kd. destruct keep; cbn [app]; [constructor; assumption|exact ND]. }
    split; [rewrite Kf; exact Kd|]. split.
    - intros ->. apply (in_get streq streq_spec); [exact NDd|]. apply in_map_iff.
      exists (lit "comments", comments). split.
      + unfold cv. destruct (existsb (streq (lit "comments")) l) eqn:X; [|reflexivity].
        apply existsb_in in X. contradiction.
      + rewrite Ed. now left.
    - intros k Hk. destruct (col_spec (cols k)) as (c & Ec & Rc). exists c. split; [|exact Rc].
      apply (in_get streq streq_spec); [exact NDd|]. apply in_map_iff. exists (k, cols k). split.
      + unfold cv. replace (existsb (streq k) l) with true by (symmetry; now apply existsb_in). now rewrite Ec.
      + rewrite Ed. apply in_or_app. right. apply in_map_iff. eauto.
  Qed.

  (** ** Any log file *)
  Theorem columns fs p text comments headers rows l keep :
    gd_get streq fs p = Some text -> contains (lit "gz") p = false -> p <> [] ->
    log_file text comments headers rows -> NoDup headers -> no_clash headers ->
    Forall (fun r => (length headers <= length r)%nat) rows ->
    NoDup l -> incl l headers -> ~ In (lit "comments") l ->
    (length l <> 1%nat -> exists d, get_log_data fs p (Some l) keep = Ok (LDict d) /\
      map fst d = (if keep then [lit "comments"] else []) ++ l /\
      (keep = true -> gd_get streq d (lit "comments") = Some (CText comments)) /\
      forall k i, In k l -> nth_error headers i = Some k ->
        exists c, gd_get streq d k = Some c /\ reads_column (map (fun r => nth i r []) rows) c) /\
    (forall k i, l = [k] -> nth_error headers i = Some k ->
      let texts := map (fun r => nth i r []) rows in
      (forall fs', Forall2 (fun t f => float_of t = Some f) texts fs' -> get_log_data fs p (Some l) keep = Ok (LArray fs')) /\
      ((exists t, In t texts /\ float_of t = None) -> get_log_data fs p (Some l) keep = Err ValueError)).
  Proof.
    intros G Z0 Pn LF ND NC Len NDl Il Nc.
    rewrite (read_file fs p text comments headers rows l keep G Z0 Pn LF ND NC Len NDl Il Nc). split.
    - intros Nl. destruct (convert_many comments l (fun k => map (fun r => nth (pos_of headers k) r []) rows) keep Nl NDl Nc)
        as (d & H1 & H2 & H3 & H4).
      exists d. split; [exact H1|]. split; [exact H2|]. split; [exact H3|]. intros k i Hk Hi.
      destruct (H4 k Hk) as (c & Hc & Rc). exists c. split; [exact Hc|]. now rewrite (pos_nth _ _ _ ND Hi) in Rc.
    - intros k i -> Hi texts. cbn [map convert]. rewrite (pos_nth _ _ _ ND Hi). fold texts. unfold gd_lookup.
      assert (G2 : gd_get streq [(lit "comments", comments); (k, texts)] k = Some texts).
      { cbn [gd_get]. rewrite (keq_false streq streq_spec), (keq_refl streq streq_spec); [reflexivity|].
        intros E. apply Nc. rewrite <- E. now left. }
      rewrite G2. cbn [bind]. split.
      + intros fs' H. assert (E : floats_of float_of texts = Some fs').
        { clear - H. induction H as [|t f ts fs' E H IH]; [reflexivity|]. cbn [floats_of]. now rewrite E, IH. }
        now rewrite E.
      + intros (t & Ht & Et). pose proof (floats_of_spec texts) as H.
        destruct (floats_of float_of texts) as [fs'|]; [|reflexivity]. exfalso.
        clear - H Ht Et. induction H as [|x f ts fs' E H IH]; [destruct Ht|]. destruct Ht as [->|Ht]; [congruence|exact (IH Ht)].
  Qed.

  (** the headers *)
  Lemma header_loop_file cl hl rl : Forall (fun l => exists l', l = 35 :: l') cl -> (forall l', hl <> 35 :: l') ->
    words hl <> [] -> header_loop uspace (cl ++ hl :: rl) = words hl.
  Proof.
    intros C Hh W. induction C as [|c cl (l' & ->) C IH]; cbn [app header_loop].
    - assert (E : is_comment hl = false).
      { unfold is_comment. destruct hl as [|a t]; [reflexivity|]. apply Z.eqb_neq. intros ->. now apply (Hh t). }
      rewrite E. destruct (words hl); [easy|reflexivity].
    - change (is_comment (35 :: l')) with true. exact IH.
  Qed.

  Lemma contains_iff s t : contains s t = true <-> exists a b, t = a ++ s ++ b.
  Proof.
    assert (Pre : forall s t, is_prefix s t = true <-> exists b, t = s ++ b).
    { induction s0 as [|c s' IH]; intros t0; [split; [intros _; exists t0; reflexivity|intros _; destruct t0; reflexivity]|].
      destruct t0 as [|d t']; cbn [is_prefix app].
      - split; [intros H; discriminate H|intros (b & E); discriminate E].
      - rewrite andb_true_iff, IH, Z.eqb_eq. split.
        + intros [-> (b & ->)]. eauto.
        + intros (b & E). injection E as -> ->. eauto. }
    induction t as [|d t IH]; cbn [contains]; rewrite orb_true_iff, Pre.
    - split; [intros [(b & E)|]; [|discriminate]; exists [], b; exact E|].
      intros (a & b & E). left. destruct a; [eauto|discriminate].
    - rewrite IH. split.
      + intros [(b & E)|(a & b & ->)]; [exists [], b; exact E|exists (d :: a), b; reflexivity].
      + intros ([|x a] & b & E); [left; eauto|]. injection E as -> ->. right. eauto.
  Qed.

  Lemma cut_last_eq c s : s = fst (cut_last c s) ++ snd (cut_last c s).
  Proof.
    induction s as [|a s IH]; [reflexivity|]. cbn [cut_last]. destruct (cut_last c s) as [[|x h] t]; cbn [fst snd app] in *.
    - destruct (a =? c); cbn; now rewrite IH at 1.
    - now rewrite IH at 1.
  Qed.

  Lemma no_gz_no_zip p : contains (lit "gz") p = false -> is_zip p = false.
  Proof.
    intros H. apply Bool.not_true_is_false. intros E. unfold is_zip in E. apply streq_spec in E.
    enough (contains (lit "gz") p = true) by congruence. apply contains_iff. unfold path_ext in E.
    rewrite (cut_last_eq slash p). destruct (cut_last slash p) as [a q]. cbn [fst snd] in *.
    rewrite (cut_last_eq dot q). destruct (cut_last dot q) as [[|x h] t]; [discriminate|].
    destruct (forallb (Z.eqb dot) (x :: h)); [discriminate|]. cbn [fst snd].
    assert (t = lit "gz") by (injection E as ->; reflexivity). subst t.
    exists (a ++ x :: h), []. rewrite app_nil_r, <- app_assoc. reflexivity.
  Qed.

  Theorem header_list fs p text comments headers rows sort_ :
    gd_get streq fs p = Some text -> contains (lit "gz") p = false -> log_file text comments headers rows ->
    get_header_list uspace gunzip fs p sort_ = Ok (Some (if sort_ then sort strle headers else headers)).
  Proof.
    intros G Z0 (lines & cl & hl & rl & -> & -> & L & C & Hh & Hn & Rh & Rr). unfold get_header_list. rewrite G.
    rewrite (no_gz_no_zip p Z0). unfold open_read. rewrite G. cbn [bind]. rewrite lines_concat by exact L.
    apply reads_words in Rh. subst headers. rewrite header_loop_file; [reflexivity| |exact Hh|exact Hn].
    clear - C. induction C as [|x y cl cs (l' & -> & _) C IH]; constructor; eauto.
  Qed.

  Theorem header_indices fs p text comments headers rows : 
    gd_get streq fs p = Some text -> contains (lit "gz") p = false -> log_file text comments headers rows -> NoDup headers ->
    exists d, get_header_indices uspace gunzip fs p = Ok d /\
      forall k i, gd_get streq d k = Some i <-> nth_error headers i = Some k.
  Proof.
    intros G Z0 LF ND. unfold get_header_indices. rewrite (header_list fs p text comments headers rows false G Z0 LF). cbn [bind].
    exists (get_indices headers). split; [reflexivity|]. intros k i. split.
    - intros H. destruct (in_dec (list_eq_dec Z.eq_dec) k headers) as [I|N].
      + apply In_nth_error in I as (j & Hj). unfold get_indices in H. rewrite (indices_nth headers 0 j k ND Hj) in H.
        injection H as <-. exact Hj.
      + unfold get_indices in H. rewrite (indices_none headers 0 k N) in H. discriminate.
    - intros H. unfold get_indices. now rewrite (indices_nth headers 0 i k ND H).
  Qed.

  Theorem file_headers fs p text comments headers rows :
    gd_get streq fs p = Some text -> contains (lit "gz") p = false -> log_file text comments headers rows ->
    (forall sort_, get_header_list uspace gunzip fs p sort_ = Ok (Some (if sort_ then sort strle headers else headers))) /\
    (NoDup headers -> exists d, get_header_indices uspace gunzip fs p = Ok d /\
      forall k i, gd_get streq d k = Some i <-> nth_error headers i = Some k).
  Proof.
    intros G Z0 LF. split.
    - intros sort_. eapply header_list; [exact G|exact Z0|exact LF].
    - intros ND. eapply header_indices; [exact G|exact Z0|exact LF|exact ND].
  Qed.

  (** all columns: the headers in order *)
  Lemma all_columns fs p text comments headers rows keep :
    gd_get streq fs p = Some text -> contains (lit "gz") p = false -> log_file text comments headers rows ->
    get_log_data fs p None keep = get_log_data fs p (Some (sort strle headers)) keep.
  Proof.
    intros G Z0 LF. unfold LogData.get_log_data at 1. rewrite (header_list fs p text comments headers rows true G Z0 LF).
    reflexivity.
  Qed.

  (** the number of rows *)
  Lemma read_floats_comments cl fp fuel : Forall (fun l => exists l', l = 35 :: l') cl ->
    read_floats uspace float_of (S fuel) (cl ++ fp) = read_floats uspace float_of (S fuel) fp.
  Proof.
    intros C. cbn [read_floats]. enough (E : read_strings uspace (cl ++ fp) = read_strings uspace fp) by now rewrite E.
    induction C as [|c cl (l' & ->) C IH]; [reflexivity|]. exact IH.
  Qed.

  Lemma count_rows rl : forall fuel count, (length rl < fuel)%nat ->
    Forall (fun l => (forall l', l <> 35 :: l') /\ words l <> [] /\ exists fs, floats_of float_of (words l) = Some fs) rl ->
    count_floats uspace float_of fuel rl count = Ok (count + Z.of_nat (length rl)).
  Proof.
    induction rl as [|r rl IH]; intros [|fuel] count Hf H; cbn [length] in Hf; try lia; cbn [count_floats].
    - cbn. now rewrite Z.add_0_r.
    - inversion H as [|? ? (N & W & fs & E) H']; subst. cbn [read_floats read_strings length].
      assert (Ec : is_comment r = false).
      { unfold is_comment. destruct r as [|a t]; [reflexivity|]. apply Z.eqb_neq. intros ->. now apply (N t). }
      rewrite Ec. destruct (words r) as [|w ws]; [easy|]. rewrite E. cbn [bind].
      destruct fs as [|f fs].
      { cbn [floats_of] in E. destruct (float_of w); [|discriminate]. destruct (floats_of float_of ws); discriminate. }
      rewrite IH by (try lia; assumption). f_equal. lia.
  Qed.

  Lemma reads_head w ws c l : space c = false -> reads (w :: ws) (c :: l) -> exists w', w = c :: w'.
  Proof.
    intros C R.
    assert (K : forall g s, blank g -> g ++ s = c :: l -> g = []).
    { intros [|a g] s B E; [reflexivity|]. injection E as -> _. rewrite (B c (or_introl eq_refl)) in C. discriminate. }
    inversion R as [|g w0 B W E1 E2|g w0 d rest ws0 B [W N] Sd R' E1 E2]; subst.
    - rewrite (K g w B E2) in E2. cbn in E2. rewrite E2. eauto.
    - rewrite (K g _ B E2) in E2. destruct w as [|a w]; [easy|]. cbn in E2. injection E2 as -> _. eauto.
  Qed.

  Theorem num_rows fs p text comments headers rows :
    gd_get streq fs p = Some text -> p <> [] -> log_file text comments headers rows ->
    (forall s, float_of (35 :: s) = None) ->
    (exists h, In h headers /\ float_of h = None) ->
    Forall (fun r => r <> [] /\ Forall (fun t => exists f, float_of t = Some f) r) rows ->
    num_data_lines uspace float_of fs p = Ok (Z.of_nat (length rows)).
  Proof.
    intros G Pn (lines & cl & hl & rl & -> & -> & L & C & Hh & Hn & Rh & Rr) Hash Hd Nums.
    unfold num_data_lines. rewrite (file_there fs p _ Pn G). unfold open_read. rewrite G. cbn [bind].
    rewrite lines_concat by exact L.
    assert (C1 : Forall (fun l => exists l', l = 35 :: l') cl).
    { clear - C. induction C as [|x y cl cs (l' & -> & _) C IH]; constructor; eauto. }
    assert (Lr : length rows = length rl) by (clear - Rr; induction Rr; cbn; congruence).
    assert (Rl : Forall (fun l => (forall l', l <> 35 :: l') /\ words l <> [] /\ exists fs, floats_of float_of (words l) = Some fs) rl).
    { clear - Rr Nums Hash. induction Rr as [|r l rows rl R Rr IH]; constructor; inversion Nums as [|? ? [Ne Nf] Nums']; subst; [|auto].
      pose proof (reads_words _ _ R) as W. rewrite W. split; [|split; [exact Ne|]].
      - intros l' ->. destruct r as [|w r]; [easy|]. inversion Nf as [|? ? (f & E) _]; subst.
        assert (exists w', w = 35 :: w') as (w' & ->).
        { apply (reads_head w r 35 l'); [reflexivity|exact R]. }
        rewrite Hash in E. discriminate.
      - pose proof (floats_of_spec r) as Hs. destruct (floats_of float_of r) as [fs|]; [eauto|].
        destruct Hs as (t & Ht & Et). rewrite Forall_forall in Nf. destruct (Nf t Ht) as (f & Ef). congruence. }
    apply reads_words in Rh. subst headers.
    assert (Fh : floats_of float_of (words hl) = None).
    { destruct Hd as (h & Ih & Eh). pose proof (floats_of_spec (words hl)) as Hs.
      destruct (floats_of float_of (words hl)) as [fs'|]; [|reflexivity]. exfalso.
      clear - Hs Ih Eh. induction Hs as [|x f ts fs' E H IH]; [destruct Ih|]. destruct Ih as [->|Ih]; [congruence|exact (IH Ih)]. }
    assert (Eq : forall f, (1 <= f)%nat -> read_floats uspace float_of (S f) (cl ++ hl :: rl) = read_floats uspace float_of f rl).
    { intros f Hf. rewrite read_floats_comments by exact C1. cbn [read_floats read_strings].
      assert (Ec : is_comment hl = false).
      { unfold is_comment. destruct hl as [|a t]; [reflexivity|]. apply Z.eqb_neq. intros ->. now apply (Hh t). }
      rewrite Ec. destruct (words hl) as [|w ws]; [easy|]. rewrite Fh. reflexivity. }
    rewrite Lr. cbn [count_floats]. remember (length (cl ++ hl :: rl)) as m eqn:Em.
    rewrite app_length in Em. cbn [length] in Em. rewrite Eq by lia.
    destruct m as [|m]; [lia|]. destruct rl as [|r rl]; [reflexivity|].
    assert (Cr : count_floats uspace float_of (S (S m)) (r :: rl) 0 = Ok (0 + Z.of_nat (length (r :: rl)))).
    { apply count_rows; [|exact Rl]. cbn [length] in Em |- *. unfold pystr in *. lia. }

    cbn [count_floats] in Cr. refine (eq_trans _ Cr).
    inversion Rl as [|? ? (N & W & fs' & E) _]; subst.
    assert (Ec : is_comment r = false).
    { unfold is_comment. destruct r as [|a t]; [reflexivity|]. apply Z.eqb_neq. intros ->. now apply (N t). }
    cbn [read_floats read_strings length]. rewrite Ec. destruct (words r); [easy|]. rewrite E. reflexivity.
  Qed.
End S.
