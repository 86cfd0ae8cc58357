(** C74: what save_log_data writes, and reading it back. *)
From Coq Require Import Permutation Sorted.
From Verif Require Import Model.LogData Spec.LogSpec Proofs.StrFacts Proofs.DictFacts Proofs.StructuresMore Proofs.ParamsFacts Proofs.PyFacts Proofs.LogDataFacts.
Open Scope Z_scope.

Section S.
  Variable uspace : Z -> bool.
  Notation space := (space uspace).
  Notation wordy := (wordy uspace).
  Notation blank := (blank uspace).
  Notation reads := (reads uspace).
  Notation strip_s := (strip_s uspace).
  Notation trims := (trims uspace).
  Notation log_file := (log_file uspace).

  Lemma reads_lead ws l c : space c = true -> reads ws l -> reads ws (c :: l).
  Proof.
    intros C R. inversion R; subst.
    - constructor. intros d [<-|H']; [exact C|auto].
    - apply (reads_last _ (c :: g)); [|assumption]. intros d [<-|H']; [exact C|auto].
    - apply (reads_more _ (c :: g)); try assumption. intros d [<-|H']; [exact C|auto].
  Qed.

  Lemma blank_one c : space c = true -> blank [c].
  Proof. intros C d [<-|[]]. exact C. Qed.

  Lemma reads_join ws : Forall wordy ws -> reads ws (join [sp] ws ++ [nl]).
  Proof.
    induction ws as [|w ws IH]; intros H; [constructor; now apply blank_one|].
    inversion H as [|? ? W H']; subst. destruct ws as [|w' ws].
    - apply (reads_more uspace [] w 10 [] []); [intros ? []|exact W|reflexivity|]. constructor. now apply blank_one.
    - replace (join [sp] (w :: w' :: ws) ++ [nl]) with ([] ++ w ++ 32 :: (join [sp] (w' :: ws) ++ [nl])).
      + constructor; [intros ? []|exact W|reflexivity|]. apply reads_lead; [reflexivity|]. apply IH, H'.
      + cbn [join]. unfold sp. rewrite <- !app_assoc. reflexivity.
  Qed.

  Lemma wordy_line w : wordy w -> one_line w.
  Proof.
    intros [_ N]. split; intros H; specialize (N _ H); discriminate.
  Qed.

  Lemma join_line ws : Forall wordy ws -> is_line (join [sp] ws ++ [nl]).
  Proof.
    intros H. exists (join [sp] ws). split; [reflexivity|]. change (one_line (join [sp] ws)).
    induction ws as [|w ws IH]; [split; intros []|]. inversion H as [|? ? W H']; subst.
    destruct (wordy_line w W) as [A B]. destruct ws as [|w' ws]; [split; assumption|].
    destruct (IH H') as [A' B']. cbn [join]. cbn [join] in A', B'.
    split; intros X; apply in_app_or in X as [X|[X|X]]; try tauto; discriminate X.
  Qed.

  Lemma strip_incl s c : In c (strip_s s) -> In c s.
  Proof.
    intros H. destruct (trims_strip uspace s) as [(g & h & _ & _ & E) _]. rewrite E. apply in_or_app. right.
    apply in_or_app. now left.
  Qed.

  (** ** Notes *)
  Definition note_line (n : pystr) : pystr :=
    (if is_comment n then [] else lit "# ") ++ strip_s n ++ [nl].

  Lemma notes_ok : forall notes out, Forall (fun s => s <> []) notes ->
    write_notes uspace notes out = (out ++ concat (map note_line notes), Ok tt).
  Proof.
    induction notes as [|n notes IH]; intros out H; [cbn; now rewrite app_nil_r|].
    inversion H as [|? ? Hn H']; subst. destruct n as [|c n]; [easy|]. cbn [write_notes].
    rewrite IH by exact H'. cbn [map concat]. unfold note_line at 2. rewrite <- !app_assoc. reflexivity.
  Qed.

  Lemma hash_nonspace : space 35 = false. Proof. reflexivity. Qed.

  Lemma note_comment n : n <> [] -> one_line n ->
    is_line (note_line n) /\ exists c l', note_line n = 35 :: l' /\ trims (skipn 2 (note_line n)) c /\ note_back uspace n c.
  Proof.
    intros Hn [N10 N13]. assert (S1 : one_line (strip_s n)) by (split; intros H; apply strip_incl in H; auto).
    destruct n as [|a n]; [easy|]. unfold note_line, is_comment.
    destruct (Z.eqb_spec a hash) as [->|Ha].
    - cbn [app]. destruct (trims_strip uspace (hash :: n)) as [(g & h & Bg & Bh & E) M].
      set (t := strip_s (hash :: n)) in *.
      assert (Eg : g = []).
      { destruct g as [|x g]; [reflexivity|]. injection E as <- _. specialize (Bg hash (or_introl eq_refl)).
        unfold hash in Bg. rewrite hash_nonspace in Bg. discriminate. }
      subst g. cbn [app] in E.
      destruct t as [|x t'].
      { cbn [app] in E. subst h. specialize (Bh hash (or_introl eq_refl)). unfold hash in Bh. rewrite hash_nonspace in Bh. discriminate. }
      cbn [app] in E. injection E as <- E. split.
      + exists (hash :: t'). split; [reflexivity|exact S1].
      + exists (strip_s (skipn 2 (hash :: n))), (t' ++ [nl]). split; [reflexivity|]. split.
        * rewrite E. destruct t' as [|y t''].
          -- cbn [app skipn]. destruct h as [|z h]; [apply (trims_strip uspace [])|].
             replace (strip_s h) with (strip_s []); [apply (trims_strip uspace [])|].
             symmetry. apply trims_fun. split; [|exact I].
             exists h, []. split; [intros d Hd; apply Bh; now right|]. split; [intros ? []|]. now rewrite !app_nil_r.
          -- cbn [app skipn]. apply (trims_pad uspace [] t'' [nl]); [intros ? []|now apply blank_one|].
             apply trims_iff. rewrite <- (app_nil_l t''). symmetry. apply trims_fun.
             apply (trims_pad uspace [] t'' h); [intros ? []|exact Bh|]. apply trims_strip.
        * apply trims_strip.
    - split.
      + exists (35 :: 32 :: strip_s (a :: n)). split; [reflexivity|]. destruct S1 as [A B].
        split; intros [H|[H|H]]; try discriminate; auto.
      + exists (strip_s (a :: n)), (32 :: strip_s (a :: n) ++ [nl]). split; [reflexivity|]. split.
        * change (skipn 2 (lit "# " ++ strip_s (a :: n) ++ [nl])) with ([] ++ strip_s (a :: n) ++ [nl]).
          apply trims_pad; [intros ? []|now apply blank_one|].
          destruct (trims_strip uspace (a :: n)) as [_ M]. split; [|exact M].
          exists [], []. split; [intros ? []|split; [intros ? []|]]. cbn [app]. now rewrite app_nil_r.
        * unfold note_back. unfold hash in Ha.
          destruct a as [|q|q]; try apply trims_strip.
          do 6 (destruct q as [q|q|]; try apply trims_strip); now elim Ha.
  Qed.

  Context {V : Type} (str : V -> pystr).

  Lemma row_ok i keys data : NoDup (map fst data) -> incl keys (map fst data) ->
    Forall (fun kc : pystr * list V => (i < length (snd kc))%nat) data ->
    exists ws, row str i keys data = Ok ws /\
      Forall2 (fun k w => exists col v, In (k, col) data /\ nth_error col i = Some v /\ w = str v) keys ws.
  Proof.
    intros ND. unfold row. induction keys as [|k keys IH]; intros I L; [exists []; split; [reflexivity|constructor]|].
    destruct IH as (ws & E & Fa); [intros x H; apply I; now right|exact L|].
    assert (Hk : In k (map fst data)) by (apply I; now left).
    apply in_map_iff in Hk as ([k' col] & Ek & Hin). cbn [fst] in Ek. subst k'.
    pose proof L as L'. rewrite Forall_forall in L'. specialize (L' _ Hin). cbn [snd] in L'.
    destruct (nth_error col i) as [v|] eqn:Ev; [|apply nth_error_None in Ev; lia].
    exists (str v :: ws). split.
    - cbn [mapM]. unfold gd_lookup at 1. rewrite (in_get streq streq_spec data k col ND Hin). cbn [bind].
      rewrite (py_get_nth _ _ _ Ev). cbn [bind]. rewrite E. reflexivity.
    - constructor; [|exact Fa]. exists col, v. split; [exact Hin|]. split; [exact Ev|reflexivity].
  Qed.

  Lemma rows_ok keys data : NoDup (map fst data) -> incl keys (map fst data) -> forall is_ out,
    Forall (fun i => Forall (fun kc : pystr * list V => (i < length (snd kc))%nat) data) is_ ->
    exists rows, Forall2 (fun i ws => row str i keys data = Ok ws /\
        Forall2 (fun k w => exists col v, In (k, col) data /\ nth_error col i = Some v /\ w = str v) keys ws) is_ rows /\
      write_rows str is_ keys data out = (out ++ concat (map (fun ws => join [sp] ws ++ [nl]) rows), Ok tt).
  Proof.
    intros ND I. induction is_ as [|i is_ IH]; intros out H.
    - exists []. split; [constructor|]. cbn. now rewrite app_nil_r.
    - inversion H as [|? ? Hi H']; subst. destruct (row_ok i keys data ND I Hi) as (ws & E & Fa).
      destruct (IH (out ++ join [sp] ws ++ [nl]) H') as (rows & Fr & Ew).
      exists (ws :: rows). split; [constructor; [split; assumption|exact Fr]|].
      cbn [write_rows map concat]. rewrite E, Ew. now rewrite <- !app_assoc.
  Qed.

  Lemma nth_error_firstn_lt {A} : forall (l : list A) n i, (i < n)%nat -> nth_error (firstn n l) i = nth_error l i.
  Proof.
    induction l as [|x l IH]; intros [|n] i H; try lia; [reflexivity|]. destruct i as [|i]; [reflexivity|].
    cbn. apply IH. lia.
  Qed.

  Lemma least_first keys k : least k keys -> exists ks, sort strle keys = k :: ks.
  Proof.
    intros [Hin Hle]. pose proof (sort_sorted strle strle_total strle_trans keys) as Ss.
    assert (Hs : In k (sort strle keys)) by (apply sort_in; exact Hin).
    destruct (sort strle keys) as [|a ks] eqn:E; [destruct Hs|]. exists ks. f_equal.
    assert (Ha : In a keys) by (apply (sort_in strle); rewrite E; now left).
    destruct Hs as [->|Hs]; [reflexivity|].
    inversion Ss as [|? ? _ Fa]; subst. rewrite Forall_forall in Fa. specialize (Fa k Hs).
    apply strle_antisym; [exact Fa|apply Hle, Ha].
  Qed.

  Lemma notes_comments notes : Forall (fun s => s <> [] /\ one_line s) notes ->
    exists cs, Forall is_line (map note_line notes) /\
      Forall2 (fun l c => exists l', l = 35 :: l' /\ trims (skipn 2 l) c) (map note_line notes) cs /\
      Forall2 (note_back uspace) notes cs.
  Proof.
    induction 1 as [|n notes [Hn Ho] H (cs & A & B & C)]; [exists []; repeat constructor|].
    destruct (note_comment n Hn Ho) as (L & c & l' & E & T & N).
    exists (c :: cs). split; [|split]; constructor; eauto.
  Qed.

  (** ** The written file *)
  Theorem saved fs p data notes n : savable uspace str p data notes n ->
    exists text c0 cs rows,
      save_log_data uspace str fs p data notes = (gd_set streq fs p text, Ok p) /\
      log_file text (c0 :: cs) (sort strle (map fst data)) rows /\
      trims p c0 /\ Forall2 (note_back uspace) notes cs /\
      length rows = n /\
      forall i ws, nth_error rows i = Some ws ->
        Forall2 (fun k w => exists col v, In (k, col) data /\ nth_error col i = Some v /\ w = str v)
          (sort strle (map fst data)) ws.
  Proof.
    intros [Sp Sn Sk Sw (k0 & col0 & Lk & Hk0 & Hin0 & Hlen) Sl Sv].
    set (keys := sort strle (map fst data)).
    destruct (least_first _ _ Lk) as (ks & Eks). fold keys in Eks.
    assert (Ik : incl keys (map fst data)) by (intros x Hx; exact (proj1 (sort_in strle _ x) Hx)).
    destruct (notes_comments notes Sn) as (cs & NL & NC & NB).
    set (l0 := lit "# " ++ p ++ [nl]).
    destruct (rows_ok keys data Sk Ik (seq 0 n)
      ((l0 ++ concat (map note_line notes)) ++ join [sp] keys ++ [nl])) as (rows & Fr & Ew).
    { apply Forall_forall. intros i Hi. apply in_seq in Hi. revert Sl. apply Forall_impl. intros kc Hkc. lia. }
    set (cl := l0 :: map note_line notes).
    exists (concat (cl ++ (join [sp] keys ++ [nl]) :: map (fun ws => join [sp] ws ++ [nl]) rows)), (strip_s p), cs, rows.
    assert (Wrows : forall i ws, nth_error rows i = Some ws -> (i < n)%nat /\
        Forall2 (fun k w => exists col v, In (k, col) data /\ nth_error col i = Some v /\ w = str v) keys ws).
    { intros i ws Hi. clear - Fr Hi.
      assert (G : forall a m, Forall2 (fun i ws => row str i keys data = Ok ws /\
          Forall2 (fun k w => exists col v, In (k, col) data /\ nth_error col i = Some v /\ w = str v) keys ws) (seq a m) rows ->
        (i < m)%nat /\ Forall2 (fun k w => exists col v, In (k, col) data /\ nth_error col (a + i) = Some v /\ w = str v) keys ws).
      { clear Fr. revert i Hi. induction rows as [|r rows IH]; intros i Hi a m H; [destruct i; discriminate|].
        destruct m as [|m]; cbn [seq] in H; inversion H as [|? ? ? ? [_ Hr] H']; subst.
        destruct i as [|i]; cbn [nth_error] in Hi.
        - injection Hi as <-. rewrite Nat.add_0_r. split; [lia|exact Hr].
        - destruct (IH i Hi (S a) m H') as [A B]. split; [lia|]. now rewrite <- plus_n_Sm. }
      exact (G 0%nat n Fr). }
    assert (Wk : Forall wordy keys).
    { apply Forall_forall. intros x Hx. rewrite Forall_forall in Sw. apply Sw, Ik, Hx. }
    assert (Wr : Forall (Forall wordy) rows).
    { apply Forall_forall. intros ws Hws. apply In_nth_error in Hws as (i & Hi). destruct (Wrows i ws Hi) as [Li Fa].
      clear - Fa Sv Li. induction Fa as [|k w keys ws (col & v & Hin & Hv & ->) Fa IH]; constructor; [|exact IH].
      rewrite Forall_forall in Sv. specialize (Sv _ Hin). cbn [snd] in Sv. rewrite Forall_forall in Sv. apply Sv.
      apply nth_error_In with (n := i). rewrite nth_error_firstn_lt by exact Li. exact Hv. }
    split; [|split; [|split; [|split; [|split]]]].
    - unfold save_log_data. fold keys. rewrite Eks at 1.
      assert (E0 : py_get (k0 :: ks) 0 = Ok k0) by reflexivity.
      rewrite E0. cbn [bind]. unfold gd_lookup at 1. rewrite (in_get streq streq_spec data k0 col0 Sk Hin0). cbn [bind].
      rewrite notes_ok by (revert Sn; apply Forall_impl; tauto). rewrite Hlen. fold l0.
      rewrite <- app_assoc. rewrite <- app_assoc in Ew. rewrite Ew. do 3 f_equal.
      rewrite concat_app. unfold cl. cbn [concat]. now rewrite <- !app_assoc.
    - exists (cl ++ (join [sp] keys ++ [nl]) :: map (fun ws => join [sp] ws ++ [nl]) rows), cl, (join [sp] keys ++ [nl]),
        (map (fun ws => join [sp] ws ++ [nl]) rows).
      assert (L0 : is_line l0).
      { exists (lit "# " ++ p). split; [unfold l0; now rewrite <- app_assoc|]. destruct Sp as [A B].
        split; intros H; apply in_app_or in H as [H|H]; auto; repeat (destruct H as [H|H]; [discriminate|]); destruct H. }
      split; [reflexivity|]. split; [reflexivity|]. split; [|split; [|split; [|split; [|split]]]].
      + apply Forall_app. split; [constructor; [exact L0|exact NL]|]. constructor; [now apply join_line|].
        clear - Wr. induction Wr as [|ws rows W Wr IH]; constructor; [now apply join_line|exact IH].
      + constructor; [|exact NC]. exists (32 :: p ++ [nl]). split; [reflexivity|].
        change (skipn 2 l0) with ([] ++ p ++ [nl]). apply trims_pad; [intros ? []|now apply blank_one|apply trims_strip].
      + intros l' E. rewrite Eks in E. rewrite Eks in Wk. inversion Wk as [|? ? [W0 _] _]; subst.
        destruct k0 as [|a k0]; [easy|]. destruct ks; cbn in E; injection E as -> _; exact (Hk0 k0 eq_refl).
      + rewrite Eks. discriminate.
      + now apply reads_join.
      + clear - Wr. induction Wr as [|ws rows W Wr IH]; constructor; [now apply reads_join|exact IH].
    - apply trims_strip.
    - exact NB.
    - apply Forall2_len in Fr. rewrite seq_length in Fr. now symmetry.
    - intros i ws Hi. exact (proj2 (Wrows i ws Hi)).
  Qed.

  (** ** Reading it back *)
  Context {F : Type} (float_of : pystr -> option F).
  Variable gunzip : pystr -> option (list pystr).
  Notation get_log_data := (get_log_data uspace float_of gunzip).
  Notation reads_column := (reads_column float_of).

  Lemma sort_perm_keys l : Permutation l (sort strle l).
  Proof. apply sort_perm. Qed.

  Lemma no_clash_perm l m : Permutation l m -> no_clash l -> no_clash m.
  Proof.
    intros P C h k Hh Hk E. apply C; [| |exact E]; (eapply Permutation_in; [apply Permutation_sym; exact P|assumption]).
  Qed.

  Lemma column_texts (data : list (pystr * list V)) (keys : list pystr) n k col j rows : NoDup (map fst data) ->
    In (k, col) data -> nth_error keys j = Some k -> length rows = n -> (n <= length col)%nat ->
    (forall i ws, nth_error rows i = Some ws ->
      Forall2 (fun k w => exists (col : list V) v, In (k, col) data /\ nth_error col i = Some v /\ w = str v) keys ws) ->
    map (fun r => nth j r []) rows = map str (firstn n col).
  Proof.
    intros ND Hin Hj Hl Hn H.
    assert (G : forall rows n m, length rows = n -> (m + n <= length col)%nat ->
      (forall i ws, nth_error rows i = Some ws ->
        Forall2 (fun k w => exists (col : list V) v, In (k, col) data /\ nth_error col (m + i) = Some v /\ w = str v) keys ws) ->
      map (fun r => nth j r []) rows = map str (firstn n (skipn m col))).
    { clear - ND Hin Hj. induction rows as [|r rows IH]; intros n m Hl Hn H; cbn [length] in Hl; subst n; [reflexivity|].
      destruct (nth_error col m) as [v|] eqn:Ev; [|apply nth_error_None in Ev; lia].
      assert (Es : skipn m col = v :: skipn (S m) col).
      { clear - Ev. revert m Ev. induction col as [|x col IH]; intros [|m] Ev; try discriminate.
        - injection Ev as ->. reflexivity.
        - cbn [nth_error] in Ev. cbn [skipn]. rewrite (IH m Ev). destruct col; reflexivity. }
      rewrite Es. cbn [map firstn]. f_equal.
      - specialize (H 0%nat r eq_refl). rewrite Nat.add_0_r in H.
        assert (Hw : exists w, nth_error r j = Some w /\ w = str v).
        { clear - H Hj ND Hin Ev. revert j Hj. induction H as [|k' w keys ws (col' & v' & I' & E' & ->) H IH]; intros j Hj; [destruct j; discriminate|].
          destruct j as [|j]; cbn [nth_error] in *; [|exact (IH j Hj)]. injection Hj as ->.
          assert (Ec : Some col = Some col').
          { rewrite <- (in_get streq streq_spec data k col ND Hin). now apply (in_get streq streq_spec). }
          injection Ec as <-. rewrite Ev in E'. injection E' as <-. eauto. }
        destruct Hw as (w & Ew & ->). exact (nth_error_nth _ _ _ Ew).
      - apply IH; [reflexivity|lia|]. intros i ws Hi. specialize (H (S i) ws Hi).
        now rewrite <- plus_n_Sm in H. }
    specialize (G rows n 0%nat Hl Hn H). exact G.
  Qed.

  Lemma get_set_same {A} (fs : list (pystr * A)) p t : gd_get streq (gd_set streq fs p t) p = Some t.
  Proof. rewrite (get_set streq streq_spec). now rewrite (keq_refl streq streq_spec). Qed.

  Theorem round_trip fs p data notes n sub keep :
    savable uspace str p data notes n -> p <> [] -> contains (lit "gz") p = false ->
    no_clash (map fst data) -> ~ In (lit "comments") (map fst data) ->
    (forall l, sub = Some l -> NoDup l /\ incl l (map fst data)) ->
    exists fs', save_log_data uspace str fs p data notes = (fs', Ok p) /\
    (length (wanted sub data) <> 1%nat -> exists d, get_log_data fs' p sub keep = Ok (LDict d) /\
      map fst d = (if keep then [lit "comments"] else []) ++ wanted sub data /\
      (keep = true -> exists c0 cs, gd_get streq d (lit "comments") = Some (CText (c0 :: cs)) /\
        trims p c0 /\ Forall2 (note_back uspace) notes cs) /\
      forall k col, In k (wanted sub data) -> In (k, col) data ->
        exists c, gd_get streq d k = Some c /\ reads_column (map str (firstn n col)) c) /\
    (forall k col, wanted sub data = [k] -> In (k, col) data ->
      let texts := map str (firstn n col) in
      (forall l, Forall2 (fun t f => float_of t = Some f) texts l -> get_log_data fs' p sub keep = Ok (LArray l)) /\
      ((exists t, In t texts /\ float_of t = None) -> get_log_data fs' p sub keep = Err ValueError)).
  Proof.
    intros Sv Pn Z0 NC Nc Hsub. pose proof (saved fs p data notes n Sv) as (text & c0 & cs & rows & Es & LF & T0 & TB & Lr & Rw).
    pose proof Sv as [Sp Sn Sk Sw S1 Sl Swd].
    set (keys := sort strle (map fst data)) in *.
    assert (Pk : Permutation (map fst data) keys) by apply sort_perm.
    assert (NDk : NoDup keys) by (eapply Permutation_NoDup; [exact Pk|exact Sk]).
    assert (NCk : no_clash keys) by (eapply no_clash_perm; [exact Pk|exact NC]).
    exists (gd_set streq fs p text). split; [exact Es|].
    assert (G : gd_get streq (gd_set streq fs p text) p = Some text) by apply get_set_same.
    assert (Len : Forall (fun r => (length keys <= length r)%nat) rows).
    { apply Forall_forall. intros r Hr. apply In_nth_error in Hr as (i & Hi). apply Rw in Hi.
      apply Forall2_len in Hi. lia. }
    assert (W : NoDup (wanted sub data) /\ incl (wanted sub data) keys).
    { destruct sub as [l|]; cbn [wanted]; [|split; [exact NDk|intros x Hx; exact Hx]].
      destruct (Hsub l eq_refl) as [A B]. split; [exact A|]. intros x Hx. eapply Permutation_in; [exact Pk|exact (B x Hx)]. }
    destruct W as [NDw Iw].
    assert (Ew : get_log_data (gd_set streq fs p text) p sub keep = get_log_data (gd_set streq fs p text) p (Some (wanted sub data)) keep).
    { destruct sub as [l|]; [reflexivity|]. cbn [wanted].
      rewrite (all_columns uspace float_of gunzip _ p text (c0 :: cs) keys rows keep G Z0 LF).
      now rewrite (sort_strings keys (map fst data)) by (apply Permutation_sym; exact Pk). }
    rewrite Ew.
    destruct (columns uspace float_of gunzip (gd_set streq fs p text) p text (c0 :: cs) keys rows (wanted sub data) keep
      G Z0 Pn LF NDk NCk Len NDw Iw) as [A B].
    { intros H. apply Iw in H. apply Nc. eapply Permutation_in; [apply Permutation_sym; exact Pk|exact H]. }
    assert (Lc : forall k col, In (k, col) data -> (n <= length col)%nat).
    { intros k col Hin. rewrite Forall_forall in Sl. exact (Sl _ Hin). }
    split.
    - intros Nl. destruct (A Nl) as (d & D1 & D2 & D3 & D4). exists d. split; [exact D1|]. split; [exact D2|]. split.
      + intros K. exists c0, cs. split; [exact (D3 K)|]. split; assumption.
      + intros k col Hk Hin. destruct (In_nth_error _ _ (Iw k Hk)) as (j & Hj).
        destruct (D4 k j Hk Hj) as (c & Hc & Rc). exists c. split; [exact Hc|].
        rewrite (column_texts data keys n k col j rows Sk Hin Hj Lr (Lc _ _ Hin) Rw) in Rc. exact Rc.
    - intros k col Ek Hin texts.
      assert (Hk : In k keys) by (apply Iw; rewrite Ek; now left). destruct (In_nth_error _ _ Hk) as (j & Hj).
      specialize (B k j Ek Hj). cbn beta zeta in B.
      rewrite (column_texts data keys n k col j rows Sk Hin Hj Lr (Lc _ _ Hin) Rw) in B. exact B.
  Qed.

  (** Its headers, and the number of its rows. *)
  Theorem saved_headers fs p data notes n sort_ : savable uspace str p data notes n -> contains (lit "gz") p = false ->
    exists fs', save_log_data uspace str fs p data notes = (fs', Ok p) /\
      get_header_list uspace gunzip fs' p sort_ = Ok (Some (sort strle (map fst data))).
  Proof.
    intros Sv Z0. destruct (saved fs p data notes n Sv) as (text & c0 & cs & rows & Es & LF & _).
    exists (gd_set streq fs p text). split; [exact Es|].
    rewrite (header_list uspace gunzip _ p text _ _ _ sort_ (get_set_same fs p text) Z0 LF).
    destruct sort_; [|reflexivity]. do 2 f_equal. apply sort_strings. apply Permutation_sym, sort_perm.
  Qed.

  Theorem saved_lines fs p data notes n : savable uspace str p data notes n -> p <> [] ->
    (forall s, float_of (35 :: s) = None) -> (exists h, In h (map fst data) /\ float_of h = None) ->
    Forall (fun kc => Forall (fun v => exists f, float_of (str v) = Some f) (firstn n (snd kc))) data ->
    exists fs', save_log_data uspace str fs p data notes = (fs', Ok p) /\
      num_data_lines uspace float_of fs' p = Ok (Z.of_nat n).
  Proof.
    intros Sv Pn Hash (h & Hh & Eh) Nums. destruct (saved fs p data notes n Sv) as (text & c0 & cs & rows & Es & LF & _ & _ & Lr & Rw).
    exists (gd_set streq fs p text). split; [exact Es|]. rewrite <- Lr.
    refine (num_rows uspace float_of gunzip _ p text (c0 :: cs) _ rows (get_set_same fs p text) Pn LF Hash _ _).
    - exists h. split; [now apply sort_in|exact Eh].
    - apply Forall_forall. intros r Hr. apply In_nth_error in Hr as (i & Hi).
      assert (Li : (i < n)%nat) by (rewrite <- Lr; apply nth_error_Some; congruence).
      specialize (Rw i r Hi). split.
      + intros ->. inversion Rw as [E|]. apply (sort_in strle) in Hh. rewrite <- E in Hh. destruct Hh.
      + clear - Rw Nums Li. induction Rw as [|k w keys ws (col & v & Hin & Hv & ->) Rw IH]; constructor; [|exact IH].
        rewrite Forall_forall in Nums. specialize (Nums _ Hin). cbn [snd] in Nums. rewrite Forall_forall in Nums.
        apply Nums. apply nth_error_In with (n := i). now rewrite nth_error_firstn_lt.
  Qed.

  (** ** Other files, failures *)
  Theorem other_files fs p data notes q : q <> p ->
    gd_get streq (fst (save_log_data uspace str fs p data notes)) q = gd_get streq fs q.
  Proof.
    intros N. assert (S1 : forall t, gd_get streq (gd_set streq fs p t) q = gd_get streq fs q).
    { intros t. rewrite (get_set streq streq_spec). rewrite (keq_false streq streq_spec); [reflexivity|congruence]. }
    unfold save_log_data. destruct (bind _ _); [|reflexivity].
    destruct (write_notes uspace notes _) as [o [u|e]]; [|apply S1].
    destruct (write_rows str _ _ data _) as [o2 r]. apply S1.
  Qed.

  Lemma row_short i keys data : NoDup (map fst data) -> incl keys (map fst data) ->
    (exists k col, In k keys /\ In (k, col) data /\ (length col <= i)%nat) ->
    row str i keys data = Err IndexError.
  Proof.
    intros ND. unfold row. induction keys as [|k keys IH]; intros I (k0 & col0 & Hk & Hin & L); [destruct Hk|].
    cbn [mapM]. assert (Hk' : In k (map fst data)) by (apply I; now left).
    apply in_map_iff in Hk' as ([k' col] & Ek & Hin'). cbn [fst] in Ek. subst k'. unfold gd_lookup at 1.
    rewrite (in_get streq streq_spec data k col ND Hin'). cbn [bind].
    destruct (nth_error col i) as [v|] eqn:Ev.
    - rewrite (py_get_nth _ _ _ Ev). cbn [bind]. rewrite IH; [reflexivity|intros x H; apply I; now right|].
      exists k0, col0. split; [|split; assumption]. destruct Hk as [->|Hk]; [|exact Hk].
      assert (Ec : Some col = Some col0).
      { rewrite <- (in_get streq streq_spec data k0 col ND Hin'). now apply (in_get streq streq_spec). }
      injection Ec as <-. apply nth_error_None in L. congruence.
    - unfold py_get, py_index. apply nth_error_None in Ev.
      destruct (Z.ltb_spec (Z.of_nat i) 0); [lia|].
      destruct (Z.ltb_spec (Z.of_nat i) (Z.of_nat (length col))); [lia|]. rewrite andb_false_r. reflexivity.
  Qed.

  Lemma row_cases i keys data : NoDup (map fst data) -> incl keys (map fst data) ->
    row str i keys data = Err IndexError \/ exists ws, row str i keys data = Ok ws.
  Proof.
    intros ND I. destruct (Exists_dec (fun kc : pystr * list V => In (fst kc) keys /\ (length (snd kc) <= i)%nat) data) as [E|N].
    - intros [k col]. cbn. destruct (in_dec (list_eq_dec Z.eq_dec) k keys); [|right; tauto].
      destruct (le_dec (length col) i); [left|right]; tauto.
    - left. apply Exists_exists in E as ([k col] & Hin & Hk & L). apply row_short; [exact ND|exact I|eauto].
    - right. clear ND. unfold row. induction keys as [|k keys IH]; [eexists; reflexivity|].
      assert (Hk : In k (map fst data)) by (apply I; now left).
      destruct IH as (ws & E).
      { intros x H. apply I. now right. }
      { intros H. apply N. revert H. apply Exists_impl. intros kc [A B]. split; [now right|exact B]. }
      cbn [mapM]. unfold gd_lookup at 1. apply (get_keys streq streq_spec) in Hk as (col & Hc). rewrite Hc. cbn [bind].
      destruct (nth_error col i) as [v|] eqn:Ev.
      + rewrite (py_get_nth _ _ _ Ev). cbn [bind]. rewrite E. eexists. reflexivity.
      + exfalso. apply N. apply Exists_exists. exists (k, col). split; [now apply (get_in streq streq_spec)|].
        split; [now left|]. now apply nth_error_None.
  Qed.

  (** A column shorter than the first one: IndexError, when the file has already been emptied. *)
  Theorem short_column fs p data notes k0 col0 k col :
    NoDup (map fst data) -> Forall (fun s => s <> []) notes ->
    least k0 (map fst data) -> In (k0, col0) data -> In (k, col) data -> (length col < length col0)%nat ->
    exists rest, save_log_data uspace str fs p data notes =
      (gd_set streq fs p (lit "# " ++ p ++ [10] ++ rest), Err IndexError).
  Proof.
    intros ND Nn Lk Hin0 Hin L. destruct (least_first _ _ Lk) as (ks & Eks).
    set (keys := sort strle (map fst data)) in *. unfold save_log_data. fold keys. cbv zeta. 
    assert (E0 : py_get keys 0 = Ok k0) by (rewrite Eks; reflexivity).
    rewrite E0. cbn [bind]. unfold gd_lookup at 1. rewrite (in_get streq streq_spec data k0 col0 ND Hin0). cbn [bind].
    rewrite notes_ok by exact Nn.
    assert (Ik : incl keys (map fst data)) by (intros x Hx; exact (proj1 (sort_in strle _ x) Hx)).
    assert (G : forall is_ out, In (length col) is_ -> exists rest, write_rows str is_ keys data out = (out ++ rest, Err IndexError)).
    { induction is_ as [|i is_ IH]; intros out Hi; [destruct Hi|]. cbn [write_rows].
      destruct (row_cases i keys data ND Ik) as [E|(ws & E)]; rewrite E.
      - exists []. now rewrite app_nil_r.
      - destruct Hi as [->|Hi].
        + rewrite row_short in E; [discriminate|exact ND|exact Ik|]. exists k, col.
          split; [|split; [exact Hin|lia]]. apply (sort_in strle). apply (in_map fst) in Hin. exact Hin.
        + destruct (IH (out ++ join [sp] ws ++ [nl]) Hi) as (rest & Er). exists ((join [sp] ws ++ [nl]) ++ rest).
          rewrite Er. now rewrite <- !app_assoc. }
    destruct (G (seq 0 (length col0)) (((lit "# " ++ p ++ [nl]) ++ concat (map note_line notes)) ++ join [sp] keys ++ [nl])) as (rest & Er).
    { apply in_seq. lia. }
    rewrite <- app_assoc in Er. rewrite <- app_assoc. rewrite Er.
    exists (concat (map note_line notes) ++ (join [sp] keys ++ [nl]) ++ rest). f_equal. f_equal.
    rewrite <- !app_assoc. reflexivity.
  Qed.

  Theorem no_data fs p notes : save_log_data uspace str fs p ([] : list (pystr * list V)) notes = (fs, Err IndexError).
  Proof. reflexivity. Qed.

  (** "gz" anywhere in the path: the file is written as text and read as a gzipped one. *)
  Theorem gz_path fs p data notes n sub keep : savable uspace str p data notes n -> p <> [] ->
    contains (lit "gz") p = true -> is_zip p = false -> (forall t, gunzip (35 :: t) = None) ->
    exists fs', save_log_data uspace str fs p data notes = (fs', Ok p) /\ get_log_data fs' p sub keep = Err OSError.
  Proof.
    intros Sv Pn Z0 Z1 Gz. destruct (saved fs p data notes n Sv) as (text & c0 & cs & rows & Es & LF & _).
    exists (gd_set streq fs p text). split; [exact Es|].
    assert (G : gd_get streq (gd_set streq fs p text) p = Some text) by apply get_set_same.
    assert (Tx : exists t, text = 35 :: t).
    { destruct LF as (lines & cl & hl & rl & -> & -> & _ & C & _). inversion C as [|l c cl' cs' (l' & -> & _) _]; subst.
      eexists. reflexivity. }
    destruct Tx as (t & Et).
    assert (Hh : exists h, (match sub with Some l => Ok (Some l) | None => get_header_list uspace gunzip (gd_set streq fs p text) p true end) = Ok h).
    { destruct sub as [l|]; [eauto|]. unfold get_header_list. rewrite G, Z1. unfold open_read. rewrite G. cbn [bind]. eauto. }
    destruct Hh as (h & Eh). unfold LogData.get_log_data. rewrite Eh. cbn [bind].
    rewrite (file_there _ _ _ Pn G). cbn [negb]. rewrite Z0. unfold open_gz. rewrite G, Et, Gz. reflexivity.
  Qed.

  (** ** get_snippets and simplify_logs *)
  Lemma pick_nodup (idx : list (pystr * nat)) : forall l (data : list (pystr * list pystr)) valid, NoDup (map fst data) ->
    NoDup (map fst (fst (fold_left (fun st k => let '(data, valid) := st in
                 if gd_mem streq idx k then (gd_set streq data k ([] : list pystr), valid ++ [k]) else st) l (data, valid)))).
  Proof.
    induction l as [|k l IH]; intros data valid ND; cbn [fold_left]; [exact ND|].
    destruct (gd_mem streq idx k); apply IH; [|exact ND]. apply (set_nodup streq streq_spec). exact ND.
  Qed.
  Lemma store_nodup idx content : forall l data d, NoDup (map fst data) -> store idx content l data = Ok d -> NoDup (map fst d).
  Proof.
    unfold store. induction l as [|k l IH]; intros data d ND E; cbn [fold_left] in E; [now injection E as <-|].
    assert (Fe : forall l e, fold_left (fun rd k => do data <- rd; do i <- gd_lookup streq idx k;
        do x <- py_get content (Z.of_nat i); Ok (gd_append streq data k x)) l (Err e) = Err e).
    { clear. induction l as [|k l IH]; intros e; [reflexivity|]. exact (IH e). }
    cbn [bind] in E. destruct (gd_lookup streq idx k) as [i|e]; cbn [bind] in E; [|rewrite Fe in E; discriminate].
    destruct (py_get content (Z.of_nat i)) as [x|e]; cbn [bind] in E; [|rewrite Fe in E; discriminate].
    eapply IH; [|exact E]. apply (set_nodup streq streq_spec). exact ND.
  Qed.
  Lemma store_all_nodup idx valid : forall ls data d, NoDup (map fst data) ->
    store_all uspace idx valid ls data = Ok d -> NoDup (map fst d).
  Proof.
    unfold store_all. induction ls as [|r ls IH]; intros data d ND E; cbn [fold_left] in E; [now injection E as <-|].
    assert (Fe : forall ls e, fold_left (fun rd l => do data <- rd; store idx (words uspace l) valid data) ls (Err e) = Err e).
    { clear. induction ls as [|k l IH]; intros e; [reflexivity|]. exact (IH e). }
    cbn [bind] in E. destruct (store idx (words uspace r) valid data) as [d'|e] eqn:Es; [|rewrite Fe in E; discriminate].
    eapply IH; [|exact E]. eapply store_nodup; [exact ND|exact Es].
  Qed.

  Lemma no_comments fs p sub d : get_log_data fs p sub false = Ok (LDict d) -> gd_get streq d (lit "comments") = None.
  Proof.
    unfold LogData.get_log_data. destruct (match sub with Some l => _ | None => _ end) as [h|e]; [|discriminate].
    cbn [bind]. destruct (file_exists fs p); cbn [negb]; [|intros [= <-]; reflexivity].
    destruct (if contains (lit "gz") p then _ else _) as [ls|e]; [|discriminate]. cbn [bind].
    destruct (scan uspace ls [] None 0) as [[[comments [headers|]] lcount]|]; try discriminate.
    destruct (clean_indices headers (get_indices headers)) as [idx|e]; [|discriminate]. cbn [bind].
    destruct h as [h|]; [|discriminate].
    destruct (pick idx h [(lit "comments", comments)]) as [data valid] eqn:Ep.
    pose proof (pick_nodup idx h [(lit "comments", comments)] []) as ND. unfold pick in Ep. rewrite Ep in ND. cbn [fst] in ND.
    specialize (ND ltac:(repeat constructor; intros [])).
    destruct (store_all uspace idx valid (skipn lcount ls) data) as [data'|e] eqn:Es; [|discriminate]. cbn [bind].
    pose proof (store_all_nodup _ _ _ _ _ ND Es) as ND'. unfold convert.
    set (cv := fun kv : pystr * list pystr => let '(k, col) := kv in _).
    assert (Kf : forall d, map fst (map cv d) = map fst d).
    { intros d0. rewrite map_map. apply map_ext. intros [k c]. cbn. destruct (existsb (streq k) valid); reflexivity. }
    assert (R : forall d, Ok (LDict (map cv (gd_pop streq data' (lit "comments")))) = Ok (LDict d) ->
      gd_get streq d (lit "comments") = None).
    { intros d0 [= <-]. apply (DictFacts.get_none streq streq_spec). rewrite Kf. rewrite (DictFacts.pop_keys streq streq_spec) by exact ND'. tauto. }
    destruct valid as [|k [|k2 v]]; [apply R| |apply R].
    destruct (gd_lookup streq data' k) as [col|e]; [|discriminate]. cbn [bind].
    destruct (floats_of float_of col); discriminate.
  Qed.

  Lemma pop_fails fs p sub : exists e, (do data <- get_log_data fs p sub false; pop_comments data) = Err e.
  Proof.
    destruct (get_log_data fs p sub false) as [[|l|d]|e] eqn:E; cbn [bind pop_comments]; try (eexists; reflexivity).
    rewrite (no_comments _ _ _ _ E). eexists; reflexivity.
  Qed.

  Variable float_str : F -> pystr.
  Theorem snippets fs infile outfile start len headers : exists e,
    get_snippets uspace float_of gunzip float_str fs infile outfile start len headers = (fs, Err e).
  Proof.
    unfold get_snippets. destruct (pop_fails fs infile headers) as (e & ->). exists e. reflexivity.
  Qed.

  Theorem simplify fs p headers : fst (simplify_log uspace float_of gunzip float_str fs p headers) = fs /\
    (snd (simplify_log uspace float_of gunzip float_str fs p headers) = Ok tt ->
     exists hs, get_header_list uspace gunzip fs p false = Ok (Some hs) /\ length hs = length headers).
  Proof.
    unfold simplify_log. destruct (get_header_list uspace gunzip fs p false) as [[hs|]|e]; try (split; [reflexivity|discriminate]).
    destruct (Nat.eqb_spec (length headers) (length hs)) as [E|N].
    - split; [reflexivity|]. intros _. exists hs. split; [reflexivity|now symmetry].
    - destruct (pop_fails fs p (Some headers)) as (e & ->). split; [reflexivity|discriminate].
  Qed.

  (** ** skip_comments *)
  Theorem skip_comments_spec cl l rest : Forall (fun l => exists l', l = 35 :: l') cl -> l <> [] -> (forall l', l <> 35 :: l') ->
    skip_comments (cl ++ l :: rest) = Ok (cl, l :: rest).
  Proof.
    intros C Hl Hh. induction C as [|c cl (l' & ->) C IH].
    - destruct l as [|a l]; [easy|]. cbn [app skip_comments is_comment].
      destruct (Z.eqb_spec a hash) as [->|Ha]; [now elim (Hh l)|reflexivity].
    - cbn [app skip_comments is_comment]. change (35 =? hash) with true. cbv beta iota. rewrite IH. reflexivity.
  Qed.
  Theorem skip_comments_end cl : Forall (fun l => exists l', l = 35 :: l') cl -> skip_comments cl = Err GeneralException.
  Proof.
    induction 1 as [|c cl (l' & ->) C IH]; [reflexivity|]. cbn [skip_comments is_comment]. change (35 =? hash) with true.
    cbv beta iota. now rewrite IH.
  Qed.
End S.

Theorem skip_comments_both cl : Forall (fun l => exists l', l = 35 :: l') cl ->
  (forall l rest, l <> [] -> (forall l', l <> 35 :: l') -> skip_comments (cl ++ l :: rest) = Ok (cl, l :: rest)) /\
  skip_comments cl = Err GeneralException.
Proof. intros C. split; [intros l rest; now apply skip_comments_spec|now apply skip_comments_end]. Qed.

Theorem saved_lines_ uspace (V : Type) (str : V -> pystr) (F : Type) (float_of : pystr -> option F) fs p data notes n :
  savable uspace str p data notes n -> p <> [] ->
  (forall s, float_of (35 :: s) = None) -> (exists h, In h (map fst data) /\ float_of h = None) ->
  Forall (fun kc => Forall (fun v => exists f, float_of (str v) = Some f) (firstn n (snd kc))) data ->
  exists fs', save_log_data uspace str fs p data notes = (fs', Ok p) /\
    num_data_lines uspace float_of fs' p = Ok (Z.of_nat n).
Proof. exact (saved_lines uspace str float_of (fun _ => None) fs p data notes n). Qed.

Theorem short_column_ uspace (V : Type) (str : V -> pystr) fs p data notes k0 col0 k col :
  NoDup (map fst data) -> Forall (fun s => s <> []) notes ->
  least k0 (map fst data) -> In (k0, col0) data -> In (k, col) data -> (length col < length col0)%nat ->
  exists rest, save_log_data uspace str fs p data notes =
    (gd_set streq fs p (lit "# " ++ p ++ [10] ++ rest), Err IndexError).
Proof. exact (short_column uspace str (fun _ : pystr => @None unit) (fun _ => None) fs p data notes k0 col0 k col). Qed.
