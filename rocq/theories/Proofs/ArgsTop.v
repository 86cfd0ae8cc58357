(** Command lines of Structures: from_args, the order of the parts, the way back. *)
From Coq Require Import Permutation Sorted.
From Verif Require Import Proofs.DictFacts Proofs.StrFacts Proofs.PyFacts Proofs.FileNamesFacts Proofs.StructuresFacts
  Proofs.StructuresTop Proofs.StructuresMore Proofs.ArgsFacts Proofs.ArgsRead Spec.ArgsSpec.
Open Scope Z_scope.

Section top.
  Variable literal_eval : pystr -> option pval.
  Variable uni : pystr -> option Z.
  Variable uninumeric : pystr -> bool.
  Variable pval_eq : pval -> pval -> bool.
  Variable other_int : pystr -> option Z.
  Variable is_float : pystr -> bool.
  Variable to_float : pval -> option pval.
  Variable to_str : pval -> pystr.
  Variable other_true : pystr -> bool.
  Variable unineg : pystr -> bool.
  Notation construct := (construct literal_eval uni uninumeric other_int is_float to_float to_str other_true).
  Notation set_fields := (set_fields literal_eval uni uninumeric other_int is_float to_float to_str other_true).
  Notation set_self := (set_self literal_eval uni uninumeric other_int is_float to_float to_str other_true).
  Notation field_value := (field_value literal_eval uni uninumeric other_int is_float to_float to_str other_true).
  Notation from_args := (from_args literal_eval uni uninumeric other_int is_float to_float to_str other_true unineg).
  Notation from_string := (from_string literal_eval uni uninumeric other_int is_float to_float to_str other_true unineg).
  Notation from_wildcard := (from_wildcard literal_eval uni uninumeric pval_eq other_int is_float to_float to_str other_true unineg).
  Notation line_ok := (line_ok uni to_float).
  Notation not_given := (not_given uni to_float).

  Theorem args_read fs inherited ps : args_class fs -> line_ok fs ps ->
    exists kw, from_args fs inherited (command_line ps) = construct fs inherited kw /\
      (forall n v, In (n, v) (values_given ps) -> gd_get streq kw n = Some v) /\
      (forall f v, In f fs -> ~ In (f_name f) (map fst (values_given ps)) -> not_given f v -> gd_get streq kw (f_name f) = Some v) /\
      (forall k, ~ In k (map f_name fs) -> gd_get streq kw k = None).
  Proof.
    intros HC HL. destruct (parse_line uni to_float unineg fs HC ps HL) as (ns & E & H). exists ns. split; [|exact H].
    unfold Args.from_args. rewrite (parser_ok fs HC). cbn [bind]. rewrite E. reflexivity.
  Qed.

  Lemma construct_ext fs inherited kw kw' : (forall k, gd_get streq kw k = gd_get streq kw' k) ->
    construct fs inherited kw = construct fs inherited kw'.
  Proof.
    intros H. unfold Structures.construct.
    assert (S : forall gs inst, set_fields gs kw inst = set_fields gs kw' inst).
    { induction gs as [|f gs IH]; intros inst; [reflexivity|]. cbn [Structures.set_fields].
      assert (E : set_self f inst kw = set_self f inst kw').
      { unfold Structures.set_self. destruct (f_class f); unfold plain_set, list_set_self, keyed_set_self; now rewrite H. }
      rewrite E. destruct (set_self f inst kw') as [i|e]; [|reflexivity]. apply IH. }
    rewrite S. destruct (set_fields fs kw' []) as [i|e]; [|reflexivity]. cbn [bind]. f_equal. unfold set_inherited.
    revert i. induction inherited as [|n l IH]; intros i; [reflexivity|]. cbn [fold_left]. rewrite H. apply IH.
  Qed.
  Lemma given_known fs ps n v : line_ok fs ps -> In (n, v) (values_given ps) -> In n (map f_name fs).
  Proof.
    intros [L _ _ _] H. unfold values_given in H. apply in_flat_map in H as (p & Hp & H). specialize (L p Hp).
    destruct p as [f t ws x|f t w x|t ws]; cbn in *; [| |destruct H].
    - destruct H as [H|[]]. injection H as <- <-. now apply in_map.
    - destruct H as [H|[]]. injection H as <- <-. now apply in_map.
  Qed.

  Theorem args_order fs inherited ps qs : args_class fs -> line_ok fs ps -> line_ok fs qs ->
    Permutation (values_given ps) (values_given qs) ->
    from_args fs inherited (command_line ps) = from_args fs inherited (command_line qs).
  Proof.
    intros HC HP HQ PM. destruct (args_read fs inherited ps HC HP) as (kw & -> & A1 & A2 & A3).
    destruct (args_read fs inherited qs HC HQ) as (kw' & -> & B1 & B2 & B3). apply construct_ext. intros k.
    destruct (in_dec (list_eq_dec Z.eq_dec) k (map f_name fs)) as [Hk|Hk]; [|now rewrite A3, B3].
    destruct (gd_get streq (values_given ps) k) as [v|] eqn:G.
    - apply (get_in streq streq_spec) in G. rewrite (A1 k v G). rewrite (B1 k v); [reflexivity|]. eapply Permutation_in; [exact PM|exact G].
    - apply (DictFacts.get_none streq streq_spec) in G. apply in_map_iff in Hk as (f & <- & Hf).
      destruct (lo_default _ _ fs ps HP f Hf G) as (v & Nv). rewrite (A2 f v Hf G Nv). symmetry. apply (B2 f v Hf); [|exact Nv].
      intros X. apply G. eapply Permutation_in; [apply Permutation_map, Permutation_sym; exact PM|exact X].
  Qed.

  (** ** The way back *)
  Hypothesis HE : evaluates literal_eval.
  Notation returns := (returns literal_eval uninumeric is_float to_float).
  Notation one_value := (one_value is_float to_float).

  Lemma safe_no_space s : Forall safe s -> ~ In 32 s.
  Proof. intros F H. rewrite Forall_forall in F. apply F in H. unfold safe in H. lia. Qed.
  Lemma int_argument n : argument (str_of_int n).
  Proof.
    unfold str_of_int. destruct (Z.ltb_spec n 0).
    - destruct (str_of_nat_spec (- n)) as (H1 & H2 & _); [lia|]. right. right. left. exists (str_of_nat (- n)).
      split; [reflexivity|]. split; [exact H1|]. apply Forall_forall. intros c Hc. rewrite forallb_forall in H2. specialize (H2 c Hc).
      unfold is_digit in H2. lia.
    - destruct (str_of_nat_spec n) as (H1 & H2 & _); [lia|]. left. intros c s E. rewrite E in H2. cbn in H2. unfold is_digit in H2.
      unfold dash. lia.
  Qed.

  (** a value in one piece: its text, and how it is read *)
  Lemma one_value_text f x : plain_class (f_class f) -> f_class f <> CBool -> one_value f x ->
    exists t, (match x with VStr s => Ok s | _ => clean_string x end) = Ok t /\ argument t /\ ~ In 32 t /\
      word_value uni to_float f t x /\ of_class is_float (f_class f) x /\
      ((forall s, x = VStr s -> Forall safe s) -> clean_string x = Ok t) /\ listify x = [x].
  Proof.
    intros [P1 P2] B. unfold ArgsSpec.one_value, word_value, of_class. destruct (f_class f); try contradiction.
    - intros (s & -> & H1 & H2). exists s. do 5 (split; [eauto|]). split; [|reflexivity]. intros S. cbn. now rewrite keep_id by now apply S.
    - intros (s & -> & H1 & H2). exists s. do 5 (split; [eauto|]). split; [|reflexivity]. intros S. cbn. now rewrite keep_id by now apply S.
    - intros (n & ->). exists (str_of_int n). assert (E : clean_string (VInt n) = Ok (str_of_int n)) by (cbn; now rewrite (keep_id _ (safe_int n))).
      split; [exact E|]. split; [apply int_argument|]. split; [apply safe_no_space, safe_int|].
      split; [exists n; split; [apply int_str|reflexivity]|]. split; [left; eauto|]. split; [auto|reflexivity].
    - intros (s & -> & H1 & H2 & H3). exists (keep_allowed s). split; [reflexivity|]. split; [exact H2|].
      split; [intros H; apply filter_In in H as [_ H]; discriminate|]. split; [exact H3|]. split; [eauto|]. split; reflexivity.
  Qed.

  Notation field_arg_string := (field_arg_string other_true).
  Definition back (f : field) (inst : attrs) (v : pval) (p : part) : Prop :=
    exists t ws x, p = Option_words f t ws x /\ part_ok uni to_float [f] (Option_words f t ws x) /\ In t (options f) /\
      field_arg_string f inst = Ok (join [32] (t :: ws)) /\ Forall (fun w => ~ In 32 w) (t :: ws) /\
      forall kw, gd_get streq kw (f_name f) = Some x -> exists w, field_value f kw = Ok (Some (Some w)) /\ same_value v w.

  Lemma name_no_space n : ident n -> ~ In 32 (flag n).
  Proof. intros I. apply flag_free; [exact I|discriminate|lia]. Qed.
  Lemma one_part f t ws x : gives uni to_float f t ws x -> Forall argument ws -> part_ok uni to_float [f] (Option_words f t ws x).
  Proof. intros G A. split; [now left|]. split; [exact A|]. exists t. split; [now left|exact G]. Qed.

  Lemma field_back f inst v : ident (f_name f) -> fine f -> get_attr inst (f_name f) = Some v -> returns f v -> exists p, back f inst v p.
  Proof.
    intros ID HF EA R.
    assert (EG : gd_get streq inst (f_name f) = Some (Some v)).
    { unfold get_attr in EA. destruct (gd_get streq inst (f_name f)) as [[y|]|]; congruence. }
    assert (OP : In (flag (f_name f)) (options f)) by (unfold options; destruct (f_class f); cbn; auto).
    assert (NS : ~ In 32 (flag (f_name f))) by now apply name_no_space.
    assert (FA : f_class f <> CBool -> forall t, (match v with VStr s => Ok s | _ => clean_string v end) = Ok t ->
       field_arg_string f inst = Ok (join [32] [flag (f_name f); t])).
    { intros B t Et. unfold Args.field_arg_string. rewrite EA, Et. cbn [bind]. destruct (f_class f); try congruence; reflexivity. }
    unfold ArgsSpec.returns in R. destruct (class_cases f) as [C|[C|[C|[HP B]]]].
    - (* Boolean *)
      rewrite C in R. destruct R as (N & R & CH). unfold ArgsSpec.one_value in R. rewrite C in R. destruct R as (b & ->).
      assert (FV : forall kw, gd_get streq kw (f_name f) = Some (VBool b) -> exists w, field_value f kw = Ok (Some (Some w)) /\ same_value (VBool b) w).
      { intros kw Ek. exists (VBool b). split; [|now left]. unfold StructuresMore.field_value, Structures.set_self. rewrite C. unfold plain_set.
        rewrite Ek. unfold nargs_of. rewrite N. rewrite (convert_valid_keeps uni other_int is_float to_float to_str other_true f (VBool b)); [reflexivity| |exact CH].
        rewrite C. cbn. eauto. }
      set (o := if b then flag (f_name f) else flag (f_name f ++ lit "_off")).
      assert (Oo : In o (options f)) by (unfold options, o; rewrite C; destruct b; cbn; auto).
      exists (Option_words f o [] (VBool b)), o, [], (VBool b). split; [reflexivity|].
      split; [apply one_part; [subst o; destruct b; now constructor|constructor]|]. split; [exact Oo|].
      split; [unfold Args.field_arg_string, o; rewrite C, EG; cbn [truth]; now destruct b|].
      split; [|exact FV]. constructor; [|constructor]. destruct (options_form f o Oo) as (n & -> & I). now apply name_no_space, I.
    - (* Listable *)
      rewrite C in R. destruct R as [TY (t & VT & A)]. unfold typed in TY. rewrite C in TY. destruct TY as (l & -> & L0 & L2 & LF & LO).
      destruct (list_texts literal_eval uni uninumeric HE l t LF VT) as (ts & Ets & Ej & _).
      assert (Et : clean_string (VList l) = Ok t) by (now rewrite clean_vlist, Ets, Ej).
      exists (Option_words f (flag (f_name f)) [t] (VStr t)), (flag (f_name f)), [t], (VStr t). split; [reflexivity|].
      split; [apply one_part; [now apply gives_list|constructor; [exact A|constructor]]|]. split; [exact OP|].
      split; [apply FA; [congruence|exact Et]|]. split; [repeat constructor; [exact NS|apply safe_no_space; exact (value_text_safe _ _ VT)]|].
      intros kw Ek. exists (VList l). split; [|now left]. unfold StructuresMore.field_value, Structures.set_self. rewrite C. unfold list_set_self.
      rewrite Ek. rewrite (list_de literal_eval uni uninumeric HE l t LF L0 L2 LO VT). reflexivity.
    - (* Keyed *)
      rewrite C in R. destruct R as [TY (t & VT & A)]. unfold typed in TY. rewrite C in TY. destruct TY as (d & -> & D0 & DN & DK).
      pose proof (value_text_safe _ _ VT) as TS. destruct VT as (u & Eu & Et).
      assert (HU : Forall safe u).
      { assert (AK : all_keys (fun k => k <> []) (VDict d)) by (apply clean_ok_iff; eauto).
        apply all_keys_dict in AK. destruct (clean_values (VDict d)) as (u' & E' & HS).
        { apply all_keys_dict. rewrite Forall_forall in AK |- *. intros [k x] Hin. destruct (AK _ Hin) as [A1 _].
          destruct (DK k x Hin) as (B1 & _ & B2). cbn [fst snd] in *. split; [tauto|]. now apply (restorable_keys literal_eval uninumeric). }
        congruence. }
      assert (t = u) as -> by (cbn in Et; rewrite (keep_id _ HU) in Et; congruence).
      destruct (deep_round literal_eval uni uninumeric HE d u D0 DN Eu) as (e & Ee & P).
      { intros k x Hin. destruct (DK k x Hin) as (_ & ? & ?). tauto. }
      exists (Option_words f (flag (f_name f)) [u] (VList [VStr u])), (flag (f_name f)), [u], (VList [VStr u]). split; [reflexivity|].
      split; [apply one_part; [now apply (gives_keyed uni to_float f u [])|constructor; [exact A|constructor]]|]. split; [exact OP|].
      split; [apply FA; [congruence|exact Eu]|]. split; [repeat constructor; [exact NS|now apply safe_no_space]|].
      intros kw Ek. exists (VDict e). split; [|right; exists d, e; repeat split; now apply Permutation_sym].
      unfold StructuresMore.field_value, Structures.set_self. rewrite C. unfold keyed_set_self. rewrite Ek. cbn [mapM bind].
      change (join [underscore] [u]) with u. rewrite Ee. reflexivity.
    - (* the others *)
      assert (R' : match f_nargs f with
        | None => one_value f v /\ choice_ok f v
        | Some n => match n with NNum k => k = 1 | _ => True end /\
            exists x, v = VList [x] /\ one_value f x /\ choice_ok f x /\ forall s, x = VStr s -> Forall safe s
        end) by (destruct HP as [P1 P2]; destruct (f_class f); try congruence; exact R).
      clear R.
      assert (SS : forall kw, set_self f [] kw = plain_set uni other_int is_float to_float to_str other_true f [] kw).
      { intros kw. unfold Structures.set_self. destruct HP as [P1 P2]. destruct (f_class f); congruence. }
      destruct (f_nargs f) as [n|] eqn:N.
      + destruct R' as (K & x & -> & OV & CH & SF). destruct (one_value_text f x HP B OV) as (t & E1 & A & S & W & OC & E2 & LX).
        assert (ET : clean_string (VList [x]) = Ok t) by (rewrite clean_vlist, clean_list_cons, (E2 SF); reflexivity).
        set (y := match n with NQuery => x | _ => VList [x] end).
        assert (LY : listify y = [x]) by (subst y; destruct n; auto).
        exists (Option_words f (flag (f_name f)) [t] y), (flag (f_name f)), [t], y. split; [reflexivity|].
        split; [apply one_part; [|constructor; [exact A|constructor]]|].
        { subst y. destruct n as [| | |k].
          - apply (gives_many uni to_float f NPlus [t] [x]); try assumption; [discriminate|repeat constructor; assumption].
          - apply (gives_many uni to_float f NStar [t] [x]); (assumption || (now repeat constructor) || discriminate).
          - now apply gives_query.
          - subst k. apply (gives_many uni to_float f (NNum 1) [t] [x]); (assumption || (now repeat constructor) || discriminate). }
        split; [exact OP|]. split; [apply FA; [exact B|exact ET]|]. split; [repeat constructor; assumption|].
        intros kw Ek. exists (VList [x]). split; [|now left]. unfold StructuresMore.field_value. rewrite SS. unfold plain_set. rewrite Ek.
        assert (M : mapM (convert_val uni other_int is_float to_float to_str other_true f) (listify y) = Ok [x]).
        { rewrite LY. cbn [mapM]. now rewrite (convert_valid_keeps uni other_int is_float to_float to_str other_true f x OC CH). }
        unfold nargs_of. rewrite N. destruct n as [| | |k]; try (rewrite M; reflexivity). subst k. rewrite M. reflexivity.
      + destruct R' as [OV CH]. destruct (one_value_text f v HP B OV) as (t & E1 & A & S & W & OC & _ & _).
        exists (Option_words f (flag (f_name f)) [t] v), (flag (f_name f)), [t], v. split; [reflexivity|].
        split; [apply one_part; [now apply gives_plain|constructor; [exact A|constructor]]|]. split; [exact OP|].
        split; [apply FA; [exact B|exact E1]|]. split; [repeat constructor; assumption|].
        intros kw Ek. exists v. split; [|now left]. unfold StructuresMore.field_value. rewrite SS. unfold plain_set. rewrite Ek.
        unfold nargs_of. rewrite N. now rewrite (convert_valid_keeps uni other_int is_float to_float to_str other_true f v OC CH).
  Qed.

  Lemma join_words : forall l : list (list pystr), (forall ws, In ws l -> ws <> []) ->
    join [32] (map (join [32]) l) = join [32] (concat l).
  Proof.
    induction l as [|ws l IH]; intros H; [reflexivity|]. cbn [map concat].
    assert (W : ws <> []) by (apply H; now left). specialize (IH (fun x Hx => H x (or_intror Hx))).
    destruct l as [|ws2 l].
    - cbn. now rewrite app_nil_r.
    - assert (N2 : ws2 <> []) by (apply H; right; now left).
      assert (N3 : concat (ws2 :: l) <> []) by (cbn; destruct ws2; [contradiction|discriminate]).
      rewrite join_cons by discriminate. rewrite IH. clear IH H. revert N3. generalize (concat (ws2 :: l)). intros m Nm. clear N2.
      induction ws as [|w ws IH]; [contradiction|]. destruct ws as [|w2 ws].
      + change ([w] ++ m) with (w :: m). rewrite (join_cons [32] w m) by exact Nm. reflexivity.
      + rewrite (join_cons [32] w (w2 :: ws)) by discriminate. change ((w :: w2 :: ws) ++ m) with (w :: ((w2 :: ws) ++ m)).
        rewrite (join_cons [32] w ((w2 :: ws) ++ m)) by discriminate. rewrite <- IH by discriminate. now rewrite <- !app_assoc.
  Qed.

  Lemma stands_mono f fs o : In f fs -> stands_for fs o o. Proof. intros _. now left. Qed.

  Theorem args_back fs inherited inst : args_class fs -> (forall n, In n inherited -> ~ In n (map f_name fs)) ->
    all_return literal_eval uninumeric is_float to_float fs inst ->
    exists s inst2, get_arg_string other_true fs inst = Ok s /\
      from_string fs inherited s = Ok inst2 /\
      (forall f v, In f fs -> get_attr inst (f_name f) = Some v -> exists w, get_attr inst2 (f_name f) = Some w /\ same_value v w) /\
      (fs <> [] -> from_wildcard fs inherited (WText s) = Ok inst2).
  Proof.
    intros HC HI HR.
    assert (PS : exists ps, Forall2 (fun f p => exists v, get_attr inst (f_name f) = Some v /\ back f inst v p) fs ps).
    { assert (X : forall gs, incl gs fs -> exists ps, Forall2 (fun f p => exists v, get_attr inst (f_name f) = Some v /\ back f inst v p) gs ps).
      { induction gs as [|f gs IH]; intros HG; [now exists []|]. destruct IH as (ps & F); [intros g Hg; apply HG; now right|].
        assert (Hf : In f fs) by (apply HG; now left). destruct (HR f Hf) as (v & Ev & Rv).
        destruct (field_back f inst v (ac_ident fs HC f Hf) (fine_all fs HC f Hf) Ev Rv) as (p & Bp).
        exists (p :: ps). constructor; [now exists v|exact F]. }
      apply X, incl_refl. }
    destruct PS as (ps & F).
    assert (WORDS : exists l, mapM (fun f => field_arg_string f inst) fs = Ok (map (join [32]) l) /\ concat l = command_line ps /\
       (forall ws, In ws l -> ws <> []) /\ Forall (fun w => ~ In 32 w) (concat l)).
    { clear -F. induction F as [|f p fs ps (v & Ev & t & ws & x & -> & _ & _ & E & S & _) _ (l & M & EC & NE & FS)].
      - exists []. split; [reflexivity|]. split; [reflexivity|]. split; [intros ws []|constructor].
      - exists ((t :: ws) :: l). cbn [mapM]. rewrite E. cbn [bind]. rewrite M. cbn [bind map concat]. split; [reflexivity|].
        split; [cbn; now rewrite EC|]. split; [intros ? [<-|H]; [discriminate|now apply NE]|]. apply Forall_app. now split. }
    destruct WORDS as (l & M & EC & NE & FS).
    exists (join [32] (map (join [32]) l)).
    assert (GIVEN : map fst (values_given ps) = map f_name fs).
    { clear -F. induction F as [|f p fs ps (v & Ev & t & ws & x & -> & _) _ IH]; [reflexivity|]. cbn. f_equal. exact IH. }
    assert (LO : line_ok fs ps).
    { constructor.
      - intros p Hp. assert (G : exists f v, In f fs /\ back f inst v p).
        { clear -F Hp. induction F as [|f q fs ps (v & Ev & Bv) _ IH]; [destruct Hp|]. destruct Hp as [->|Hp].
          - exists f, v. split; [now left|exact Bv].
          - destruct (IH Hp) as (g & w & Hg & Bg). exists g, w. split; [now right|exact Bg]. }
        destruct G as (f & v & Hf & t & ws & x & -> & (_ & A & o & So & G) & Ot & _). split; [exact Hf|]. split; [exact A|].
        exists t. split; [now left|]. destruct So as [->|(n & r & En & Nn & Eo & U)]; [exact G|].
        rewrite (U t []); [exact G| |now rewrite app_nil_r]. unfold all_options. cbn. rewrite app_nil_r. now right.
      - rewrite GIVEN. apply (fields_nodup fs HC).
      - intros f Hf _ _. rewrite GIVEN. now apply in_map.
      - intros f Hf X. exfalso. apply X. rewrite GIVEN. now apply in_map. }
    assert (SP : fs <> [] -> split 32 (join [32] (map (join [32]) l)) = command_line ps).
    { intros Hfs. rewrite (join_words l NE), split_join; [exact EC| |exact FS]. rewrite EC. destruct F as [|f p fs' ps' (v & Ev & t & ws & x & -> & _)]; [contradiction|discriminate]. }
    destruct (args_read fs inherited ps HC LO) as (kw & EA & K1 & K2 & K3).
    assert (VALUES : forall f v, In f fs -> get_attr inst (f_name f) = Some v -> exists w, field_value f kw = Ok (Some (Some w)) /\ same_value v w).
    { intros f v Hf Ev. assert (G : exists p, In p ps /\ back f inst v p).
      { clear -F Hf Ev. induction F as [|g q fs ps (v' & Ev' & Bv) _ IH]; [destruct Hf|]. destruct Hf as [->|Hf].
        - exists q. split; [now left|]. congruence.
        - destruct (IH Hf) as (p & Hp & Bp). exists p. split; [now right|exact Bp]. }
      destruct G as (p & Hp & t & ws & x & -> & _ & _ & _ & _ & H). apply H. apply K1. unfold values_given. apply in_flat_map.
      exists (Option_words f t ws x). split; [exact Hp|now left]. }
    destruct (set_fields_all literal_eval uni uninumeric other_int is_float to_float to_str other_true kw fs []) as (i2 & E2).
    { intros f Hf. destruct (HR f Hf) as (v & Ev & _). destruct (VALUES f v Hf Ev) as (w & -> & _). eauto. }
    assert (EC2 : construct fs inherited kw = Ok (set_inherited inherited kw i2)).
    { unfold Structures.construct. now rewrite E2. }
    exists (set_inherited inherited kw i2).
    assert (FSTR : from_string fs inherited (join [32] (map (join [32]) l)) = Ok (set_inherited inherited kw i2)).
    { unfold Args.from_string. destruct fs as [|f0 fs0] eqn:Efs.
      - inversion F; subst. destruct l as [|ws l]; [|destruct ws; [exfalso; apply (NE []); [now left|reflexivity]|discriminate]].
        rewrite <- EC2, <- EA. reflexivity.
      - rewrite SP by discriminate. now rewrite EA. }
    split; [unfold get_arg_string; rewrite M; reflexivity|]. split; [exact FSTR|]. split.
    - intros f v Hf Ev. destruct (VALUES f v Hf Ev) as (w & Ew & Sw). exists w. split; [|exact Sw].
      destruct (set_fields_spec literal_eval uni uninumeric other_int is_float to_float to_str other_true fs kw [] i2 (fields_nodup fs HC) E2) as [H1 _].
      destruct (H1 f Hf) as (o & Eo & Go). assert (o = Some (Some w)) as -> by congruence.
      unfold get_attr. rewrite inherited_other; [now rewrite Go|]. intros X. apply (HI _ X). now apply in_map.
    - intros Hfs. unfold Args.from_wildcard. rewrite FSTR.
      assert (CT : contains [dash; dash] (join [32] (map (join [32]) l)) = true).
      { rewrite (join_words l NE), EC. destruct F as [|f p fs' ps' (v & Ev & t & ws & x & -> & _ & Ot & _)]; [contradiction|].
        destruct (options_form f t Ot) as (n & -> & _). cbn [command_line flat_map part_args app].
        assert (X : forall rest, exists r, join [32] (flag n :: rest) = dash :: dash :: r).
        { intros rest. unfold flag. destruct rest; eexists; reflexivity. }
        destruct (X (ws ++ flat_map part_args ps')) as (r & ->). reflexivity. }
      now rewrite CT.
  Qed.
End top.
