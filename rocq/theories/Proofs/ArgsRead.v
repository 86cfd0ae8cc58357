(** Command lines of Structures: what from_args reads. *)
From Coq Require Import Permutation Sorted.
From Verif Require Import Proofs.DictFacts Proofs.StrFacts Proofs.PyFacts Proofs.StructuresTop Proofs.StructuresMore Proofs.ArgsFacts Spec.ArgsSpec.
Open Scope Z_scope.

Lemma remove_no x : forall l, ~ In x l -> remove_first x l = l.
Proof.
  induction l as [|y l IH]; intros H; [reflexivity|]. cbn [remove_first]. cbn [In] in H.
  rewrite streq_no by tauto. now rewrite IH by tauto.
Qed.
Lemma mapM_forall2 {A B} (f : A -> result B) l m : Forall2 (fun x y => f x = Ok y) l m -> mapM f l = Ok m.
Proof. induction 1 as [|x y l m H _ IH]; [reflexivity|]. cbn. rewrite H, IH. reflexivity. Qed.

Section read.
  Variable uni : pystr -> option Z.
  Variable to_float : pval -> option pval.
  Variable unineg : pystr -> bool.
  Variable fs : list field.
  Hypothesis HC : args_class fs.
  Notation gives := (gives uni to_float).
  Notation word_value := (word_value uni to_float).
  Notation part_ok := (part_ok uni to_float).
  Notation not_given := (not_given uni to_float).
  Notation arg_values := (arg_values uni to_float).
  Notation take_option := (take_option uni to_float).
  Notation consume := (consume uni to_float).
  Notation P := (parser fs).

  (** the option takes the words and gives the value *)
  Definition takes_words (a : action) (ws : list pystr) (v : pval) : Prop :=
    match a_takes a with
    | THelp => False
    | TConst c => ws = [] /\ v = c
    | TArgs n => how_many n (length ws) = Some (length ws) /\ (~ In [dash; dash] ws -> arg_values a n ws = Ok v)
    end.

  Lemma plain_word f w v : plain_class (f_class f) -> word_value f w v -> arg_convert uni to_float (plain_act f) w = Ok v.
  Proof.
    intros [P1 P2]. unfold ArgsSpec.word_value, arg_convert, plain_act. cbn [a_type].
    destruct (f_class f); try contradiction; try (now intros ->).
    intros (n & -> & ->). reflexivity.
  Qed.
  Lemma plain_value f w v : plain_class (f_class f) -> word_value f w v -> choice_ok f v ->
    arg_value uni to_float (plain_act f) w = Ok v.
  Proof.
    intros HP W CH. unfold arg_value. rewrite (plain_word f w v HP W). cbn [bind]. unfold plain_act. cbn [a_choices].
    destruct (f_choices f) as [ok|] eqn:E; [|reflexivity]. now rewrite (CH ok E).
  Qed.
  Lemma text_values a ws : a_type a = CAny -> a_choices a = None -> mapM (arg_value uni to_float a) ws = Ok (map VStr ws).
  Proof.
    intros T C. apply mapM_ok. intros w _. unfold arg_value, arg_convert. rewrite T. cbn [bind]. now rewrite C.
  Qed.

  Lemma gives_action f o ws v : fine f -> gives f o ws v ->
    exists a, In a (acts f) /\ a_names a = [o] /\ takes_words a ws v.
  Proof.
    intros HF G. unfold acts.
    assert (PA : plain_class (f_class f) -> f_class f <> CBool -> actions_of f = Ok [plain_act f]) by (now apply acts_plain).
    destruct G as [C|C|w C|w ws C|w ws C|w v HP B N W CH|w v HP B N W CH|HP B N|n ws vs HP B N K W].
    1-5: unfold actions_of; rewrite C; cbn [In].
    - eexists. split; [right; left; reflexivity|]. split; [reflexivity|]. now split.
    - eexists. split; [left; reflexivity|]. split; [reflexivity|]. now split.
    - eexists. split; [left; reflexivity|]. split; [reflexivity|]. split; [reflexivity|]. intros D. unfold Args.arg_values.
      rewrite remove_no by exact D. reflexivity.
    - eexists. split; [right; left; reflexivity|]. split; [reflexivity|]. split; [reflexivity|]. intros D. unfold Args.arg_values.
      rewrite remove_no by exact D. now rewrite text_values.
    - eexists. split; [left; reflexivity|]. split; [reflexivity|]. split; [reflexivity|]. intros D. unfold Args.arg_values.
      rewrite remove_no by exact D. now rewrite text_values.
    - rewrite (PA HP B). exists (plain_act f). split; [now left|]. split; [reflexivity|]. unfold takes_words. cbn [plain_act a_takes].
      rewrite N. split; [reflexivity|]. intros D. unfold Args.arg_values. rewrite remove_no by exact D. now apply plain_value.
    - rewrite (PA HP B). exists (plain_act f). split; [now left|]. split; [reflexivity|]. unfold takes_words. cbn [plain_act a_takes].
      rewrite N. split; [reflexivity|]. intros D. unfold Args.arg_values. rewrite remove_no by exact D. now apply plain_value.
    - rewrite (PA HP B). exists (plain_act f). split; [now left|]. split; [reflexivity|]. unfold takes_words. cbn [plain_act a_takes].
      rewrite N. split; [reflexivity|]. intros D. reflexivity.
    - rewrite (PA HP B). exists (plain_act f). split; [now left|]. split; [reflexivity|]. unfold takes_words. cbn [plain_act a_takes].
      rewrite N. split.
      + destruct n as [| | |k]; cbn [how_many]; [|reflexivity|contradiction|].
        * destruct ws; [contradiction|reflexivity].
        * rewrite <- K, Nat2Z.id, Nat.leb_refl. reflexivity.
      + intros D. unfold Args.arg_values. rewrite remove_no by exact D.
        assert (M : mapM (arg_value uni to_float (plain_act f)) ws = Ok vs).
        { apply mapM_forall2. clear -W HP. induction W as [|w x ws vs [W1 W2] _ IH]; constructor; [now apply plain_value|exact IH]. }
        destruct n; try contradiction; rewrite M; reflexivity.
  Qed.

  (** ** Tokens of the parts *)
  Definition words_tokens (ws : list pystr) : list (pystr * token) := map (fun w => (w, IsArg)) ws.
  Definition takes_part (f : field) (a : action) (ws : list pystr) (v : pval) : Prop :=
    In f fs /\ In a (acts f) /\ takes_words a ws v /\ ~ In [dash; dash] ws.
  Definition part_action (p : part) (a : action) : Prop :=
    match p with
    | Option_words f t _ _ | Option_equals f t _ _ => In f fs /\ In a (acts f) /\ exists o, stands_for fs t o /\ a_names a = [o]
    | Stranger _ _ => False
    end.
  Definition tok_part (p : part) (ts : list (pystr * token)) : Prop :=
    match p with
    | Option_words f t ws v => exists a, ts = (t, IsOption a None) :: words_tokens ws /\ takes_part f a ws v /\ part_action p a
    | Option_equals f t w v => exists a, ts = [(t ++ 61 :: w, IsOption a (Some w))] /\ takes_part f a [w] v /\ part_action p a
    | Stranger t ws => ts = (t, IsUnknown) :: words_tokens ws
    end.

  Lemma classify_more : forall l rest ts, (forall s t, In (s, t) l -> classify unineg P s = Ok t /\ s <> [dash; dash]) ->
    classify_all unineg P rest = Ok ts -> classify_all unineg P (map fst l ++ rest) = Ok (l ++ ts).
  Proof.
    induction l as [|[s t] l IH]; intros rest ts H E; [exact E|]. cbn [map fst app classify_all].
    destruct (H s t (or_introl eq_refl)) as [H1 H2]. rewrite (streq_no _ _ H2), H1. cbn [bind].
    rewrite (IH rest ts); [reflexivity| |exact E]. intros s' t' X. apply H. now right.
  Qed.
  Lemma words_classified ws s t : Forall argument ws -> In (s, t) (words_tokens ws) -> classify unineg P s = Ok t /\ s <> [dash; dash].
  Proof.
    intros F H. apply in_map_iff in H as (w & E & Hw). injection E as <- <-. rewrite Forall_forall in F.
    now apply (classify_arg fs HC unineg), F.
  Qed.
  Lemma words_fst ws : map fst (words_tokens ws) = ws.
  Proof. unfold words_tokens. rewrite map_map. apply map_id. Qed.
  Lemma no_dashes ws : Forall argument ws -> ~ In [dash; dash] ws.
  Proof. intros F H. rewrite Forall_forall in F. apply F in H. now apply (classify_arg fs HC unineg) in H as [_ H]. Qed.

  Lemma tokens_of rest ts : classify_all unineg P rest = Ok ts -> forall ps, (forall p, In p ps -> part_ok fs p) ->
    exists tss, Forall2 tok_part ps tss /\ classify_all unineg P (command_line ps ++ rest) = Ok (concat tss ++ ts).
  Proof.
    intros HR. induction ps as [|p ps IH]; intros H; [exists []; split; [constructor|exact HR]|].
    destruct IH as (tss & F & E); [intros q Hq; apply H; now right|]. specialize (H p (or_introl eq_refl)).
    assert (X : exists l, tok_part p l /\ map fst l = part_args p /\
       forall s t, In (s, t) l -> classify unineg P s = Ok t /\ s <> [dash; dash]).
    { destruct p as [f t ws v|f t w v|t ws]; cbn [ArgsSpec.part_ok part_args tok_part] in *.
      - destruct H as (Hf & HA & o & S & G). destruct (gives_action f o ws v (fine_all fs HC f Hf) G) as (a & Ha & Na & T).
        destruct (acts_dest f a (fine_all fs HC f Hf) Ha) as (_ & _ & o' & No & Oo). rewrite Na in No. injection No as <-.
        destruct (options_form f o Oo) as (n & En & _).
        assert (Hp : In a P) by now apply (in_parser fs f). assert (Ho : In o (a_names a)) by (rewrite Na; now left).
        exists ((t, IsOption a None) :: words_tokens ws). split; [exists a; split; [reflexivity|]; split; [split; [exact Hf|]; split; [exact Ha|]; split; [exact T|now apply no_dashes]|split; [exact Hf|]; split; [exact Ha|]; now exists o]|].
        split; [cbn [map fst]; now rewrite words_fst|]. intros s u [Q|Q]; [|now apply (words_classified ws)].
        injection Q as <- <-. split; [apply (classify_option fs HC unineg a o t Hp Ho); [now exists n|exact S]|].
        destruct (stands_flag fs HC t o) as (m & -> & I); [apply names_in; now exists a|exact S|now exists n|].
        intros Q. unfold flag in Q. injection Q as ->. now destruct I as [I _].
      - destruct H as (Hf & HW & o & S & G). destruct (gives_action f o [w] v (fine_all fs HC f Hf) G) as (a & Ha & Na & T).
        destruct (acts_dest f a (fine_all fs HC f Hf) Ha) as (_ & _ & o' & No & Oo). rewrite Na in No. injection No as <-.
        destruct (options_form f o Oo) as (n & En & _).
        assert (Hp : In a P) by now apply (in_parser fs f). assert (Ho : In o (a_names a)) by (rewrite Na; now left).
        exists [(t ++ 61 :: w, IsOption a (Some w))]. split; [exists a; split; [reflexivity|]; split; [split; [exact Hf|]; split; [exact Ha|]; split; [exact T|]; intros [Q|[]]; congruence|split; [exact Hf|]; split; [exact Ha|]; now exists o]|].
        split; [reflexivity|]. intros s u [Q|[]].
        injection Q as <- <-. split; [apply (classify_equals fs HC unineg a o t w Hp Ho); [now exists n|exact S]|].
        destruct (stands_flag fs HC t o) as (m & -> & I); [apply names_in; now exists a|exact S|now exists n|].
        intros Q. unfold flag in Q. cbn [app] in Q. injection Q as Q. now destruct m.
      - destruct H as (S & F2). exists ((t, IsUnknown) :: words_tokens ws). split; [reflexivity|].
        split; [cbn [map fst]; now rewrite words_fst|]. intros s u [Q|Q]; [|now apply (words_classified ws)].
        injection Q as <- <-. split; [now apply (classify_stranger fs HC unineg)|].
        destruct S as (n & -> & [I _] & _). intros Q. unfold flag in Q. injection Q as ->. now apply I. }
    destruct X as (l & TP & EF & HL). exists (l :: tss). split; [now constructor|].
    cbn [concat]. change (command_line (p :: ps)) with (part_args p ++ command_line ps). rewrite <- EF, <- !app_assoc. now apply classify_more.
  Qed.

  (** ** The loop *)
  Definition no_arg_first (ts : list (pystr * token)) : Prop :=
    match ts with (_, IsArg) :: _ => False | _ => True end.
  Lemma leading_words ws ts : no_arg_first ts -> leading (words_tokens ws ++ ts) = ws.
  Proof.
    intros H. induction ws as [|w ws IH]; cbn; [|now rewrite <- IH at 2].
    destruct ts as [|[s [| | |]] ts]; try reflexivity. destruct H.
  Qed.
  Lemma skip_words ws ts st : consume (words_tokens ws ++ ts) (length ws) st = consume ts 0 st.
  Proof. induction ws as [|w ws IH]; [reflexivity|]. cbn. exact IH. Qed.
  Lemma idle_words ws ts st : consume (words_tokens ws ++ ts) 0 st = consume ts 0 st.
  Proof. induction ws as [|w ws IH]; [reflexivity|]. cbn. exact IH. Qed.
  Lemma parts_first ps tss rest : Forall2 tok_part ps tss -> no_arg_first rest -> no_arg_first (concat tss ++ rest).
  Proof.
    intros H R. destruct H as [|p ts ps tss T _]; [exact R|]. destruct p as [f t ws v|f t w v|t ws]; cbn [tok_part] in T.
    - destruct T as (a & -> & _). exact I.
    - destruct T as (a & -> & _). exact I.
    - subst ts. exact I.
  Qed.

  Lemma store_ok a v ns seen : (forall b, In b seen -> a_dest b <> a_dest a) ->
    store a v (ns, seen) = Ok (gd_set streq ns (a_dest a) v, a :: seen).
  Proof.
    intros H. unfold store.
    assert (E : existsb (fun b => streq (a_dest b) (a_dest a) && negb (same_action a b)) seen = false).
    { apply not_true_is_false. rewrite existsb_exists. intros (b & Hb & E). apply andb_true_iff in E as [E _].
      apply streq_spec in E. now apply (H b Hb). }
    rewrite E, andb_false_r. reflexivity.
  Qed.
  Lemma take_ok a ws v ts ns seen : takes_words a ws v -> ~ In [dash; dash] ws -> no_arg_first ts ->
    (forall b, In b seen -> a_dest b <> a_dest a) ->
    take_option a None (words_tokens ws ++ ts) (ns, seen) = Ok (length ws, (gd_set streq ns (a_dest a) v, a :: seen)).
  Proof.
    intros T D F S. unfold takes_words in T. unfold Args.take_option. destruct (a_takes a) as [n|c|]; [| |contradiction].
    - destruct T as [T1 T2]. rewrite leading_words by exact F. rewrite T1, firstn_all, T2 by exact D. cbn [bind].
      rewrite store_ok by exact S. reflexivity.
    - destruct T as [-> ->]. rewrite store_ok by exact S. reflexivity.
  Qed.
  Lemma take_equals a w v ts ns seen : takes_words a [w] v -> w <> [dash; dash] ->
    (forall b, In b seen -> a_dest b <> a_dest a) ->
    take_option a (Some w) ts (ns, seen) = Ok (0%nat, (gd_set streq ns (a_dest a) v, a :: seen)).
  Proof.
    intros T D S. unfold takes_words in T. unfold Args.take_option. destruct (a_takes a) as [n|c|]; [| |contradiction].
    - destruct T as [T1 T2]. cbn [length] in T1. rewrite T1, T2 by (intros [X|[]]; congruence). cbn [bind].
      rewrite store_ok by exact S. reflexivity.
    - destruct T as [T _]. discriminate.
  Qed.

  Lemma consume_parts rest : no_arg_first rest -> forall ps tss ns seen, Forall2 tok_part ps tss -> NoDup (map fst (values_given ps)) ->
    (forall b, In b seen -> ~ In (a_dest b) (map fst (values_given ps))) -> (forall b, In b seen -> In b P) ->
    exists ns' seen', consume (concat tss ++ rest) 0 (ns, seen) = consume rest 0 (ns', seen') /\
      (forall k, gd_get streq ns' k = match gd_get streq (values_given ps) k with Some v => Some v | None => gd_get streq ns k end) /\
      (forall b, In b seen' -> In b seen \/ (In b P /\ In (a_dest b) (map fst (values_given ps)))) /\
      (forall b, In b seen -> In b seen') /\
      (forall p, In p ps -> part_field p <> [] -> exists b, part_action p b /\ In b seen').
  Proof.
    intros R0. induction ps as [|p ps IH]; intros tss ns seen HT HN HS HP.
    - inversion HT; subst. exists ns, seen. split; [reflexivity|]. split; [reflexivity|]. split; [auto|]. split; [auto|]. intros q [].
    - inversion HT as [|? ts ? tss' T HT']; subst. cbn [concat]. rewrite <- app_assoc.
      assert (ST : forall f v a, values_given (p :: ps) = (f_name f, v) :: values_given ps ->
        In f fs -> In a (acts f) -> part_action p a ->
        consume (ts ++ concat tss' ++ rest) 0 (ns, seen) = consume (concat tss' ++ rest) 0 (gd_set streq ns (a_dest a) v, a :: seen) ->
        exists ns' seen', consume (ts ++ concat tss' ++ rest) 0 (ns, seen) = consume rest 0 (ns', seen') /\
          (forall k, gd_get streq ns' k = match gd_get streq (values_given (p :: ps)) k with Some v => Some v | None => gd_get streq ns k end) /\
          (forall b, In b seen' -> In b seen \/ (In b P /\ In (a_dest b) (map fst (values_given (p :: ps))))) /\
          (forall b, In b seen -> In b seen') /\
          (forall q, In q (p :: ps) -> part_field q <> [] -> exists b, part_action q b /\ In b seen')).
      { intros f v a EV Hf Ha PA EC. rewrite EV in HN, HS. cbn [map fst] in HN, HS. inversion HN as [|? ? N1 N2]; subst.
        destruct (acts_dest f a (fine_all fs HC f Hf) Ha) as (Da & _ & _).
        assert (Pa : In a P) by now apply (in_parser fs f).
        destruct (IH tss' (gd_set streq ns (a_dest a) v) (a :: seen) HT' N2) as (ns' & seen' & E1 & E2 & E3 & E4 & E5).
        { intros b [<-|Hb]; [now rewrite Da|]. intros X. apply (HS b Hb). now right. }
        { intros b [<-|Hb]; [exact Pa|now apply HP]. }
        exists ns', seen'. rewrite EC. split; [exact E1|]. rewrite EV. cbn [map fst]. split; [|split; [|split]].
        - intros k. rewrite E2, (get_set streq streq_spec), Da. cbn [gd_get].
          destruct (streq (f_name f) k) eqn:Q; [|reflexivity]. apply streq_spec in Q as <-.
          rewrite (proj2 (DictFacts.get_none streq streq_spec _ _) N1). reflexivity.
        - intros b Hb. destruct (E3 b Hb) as [[<-|X]|[X1 X2]]; [right|now left|right].
          + split; [exact Pa|]. left. now rewrite Da.
          + split; [exact X1|now right].
        - intros b Hb. apply E4. now right.
        - intros q [<-|Hq] Nq.
          + exists a. split; [exact PA|]. apply E4. now left.
          + now apply E5. }
      pose proof (parts_first ps tss' rest HT' R0) as F0.
      assert (SD : forall f v a, values_given (p :: ps) = (f_name f, v) :: values_given ps -> In f fs -> In a (acts f) ->
        forall b, In b seen -> a_dest b <> a_dest a).
      { intros f v a EV Hf Ha b Hb Q. apply (HS b Hb). rewrite EV, Q.
        destruct (acts_dest f a (fine_all fs HC f Hf) Ha) as (-> & _ & _). now left. }
      destruct p as [f t ws v|f t w v|t ws]; cbn [tok_part] in T.
      + destruct T as (a & -> & (Hf & Ha & TW & D) & PA). apply (ST f v a eq_refl Hf Ha PA). cbn [app Args.consume].
        rewrite (take_ok a ws v _ ns seen TW D F0 (SD f v a eq_refl Hf Ha)). cbn [bind]. apply skip_words.
      + destruct T as (a & -> & (Hf & Ha & TW & D) & PA). apply (ST f v a eq_refl Hf Ha PA). cbn [app Args.consume].
        rewrite (take_equals a w v _ ns seen TW); [reflexivity|intros ->; apply D; now left|exact (SD f v a eq_refl Hf Ha)].
      + subst ts. cbn [app Args.consume]. rewrite idle_words.
        change (values_given (Stranger t ws :: ps)) with (values_given ps) in *.
        destruct (IH tss' ns seen HT' HN HS HP) as (ns' & seen' & E1 & E2 & E3 & E4 & E5). exists ns', seen'.
        split; [exact E1|]. split; [exact E2|]. split; [exact E3|]. split; [exact E4|]. intros q [<-|Hq] Nq; [now exfalso|now apply E5].
  Qed.
  Lemma parts_given ps seen : (forall p, In p ps -> part_field p <> [] -> exists b, part_action p b /\ In b seen) ->
    forall k, In k (map fst (values_given ps)) -> exists f b, In f fs /\ f_name f = k /\ In b (acts f) /\ In b seen.
  Proof.
    intros H k Hk. apply in_map_iff in Hk as ([k' v] & <- & Hk). unfold values_given in Hk. apply in_flat_map in Hk as (p & Hp & Hk).
    destruct (H p Hp) as (b & Pb & Sb); [intros E; rewrite E in Hk; destruct Hk|].
    destruct p as [f t ws x|f t w x|t ws]; cbn in Hk; [| |destruct Hk]; destruct Hk as [Hk|[]]; injection Hk as <- <-;
      destruct Pb as (Hf & Ha & _); exists f, b; repeat split; assumption.
  Qed.

  (** ** Defaults *)
  Definition dflt (f : field) : pval :=
    match f_class f with
    | CBool => match f_default f with Some d => d | None => the_empty end
    | CList | CKeyed => VNone
    | _ => match f_default f with Some v => v | None => VNone end
    end.
  Lemma acts_default f a : fine f -> In a (acts f) -> a_default a = dflt f.
  Proof.
    intros HF. unfold acts, dflt. destruct (class_cases f) as [C|[C|[C|[HP B]]]].
    1-3: unfold actions_of; rewrite C; cbn [In]; intuition (subst; reflexivity).
    rewrite (acts_plain f HF HP B). intros [<-|[]]. destruct HP as [P1 P2]. cbn. destruct (f_class f); congruence.
  Qed.
  Definition is_option (k : pystr) (a : action) : bool := match a_takes a with THelp => false | _ => streq (a_dest a) k end.
  Lemma defaults_get : forall l ns k, gd_get streq (fold_left (fun ns a => match a_takes a with
                           | THelp => ns
                           | _ => if gd_mem streq ns (a_dest a) then ns else gd_set streq ns (a_dest a) (a_default a)
                           end) l ns) k =
    match gd_get streq ns k with Some v => Some v | None => option_map a_default (find (is_option k) l) end.
  Proof.
    induction l as [|a l IH]; intros ns k; cbn [fold_left find]; [now destruct (gd_get streq ns k)|].
    rewrite IH. unfold is_option at 2. clear IH.
    assert (X : a_takes a <> THelp -> match gd_get streq (if gd_mem streq ns (a_dest a) then ns else gd_set streq ns (a_dest a) (a_default a)) k with
      | Some v => Some v | None => option_map a_default (find (is_option k) l) end =
      match gd_get streq ns k with Some v => Some v
      | None => option_map a_default (if streq (a_dest a) k then Some a else find (is_option k) l) end).
    { intros _. unfold gd_mem. destruct (gd_get streq ns (a_dest a)) as [x|] eqn:G.
      - destruct (streq (a_dest a) k) eqn:Q; [|reflexivity]. apply streq_spec in Q as <-. now rewrite G.
      - rewrite (get_set streq streq_spec). destruct (streq (a_dest a) k) eqn:Q; [|reflexivity]. apply streq_spec in Q as <-. now rewrite G. }
    destruct (a_takes a); [apply X; discriminate|apply X; discriminate|reflexivity].
  Qed.
  Lemma find_option f : In f fs -> exists a, find (is_option (f_name f)) P = Some a /\ In a (acts f).
  Proof.
    intros Hf. destruct (find (is_option (f_name f)) P) as [a|] eqn:E.
    - apply find_some in E as [Ha E]. exists a. split; [reflexivity|]. destruct Ha as [<-|Ha]; [discriminate|].
      apply in_flat_map in Ha as (g & Hg & Ha). destruct (acts_dest g a (fine_all fs HC g Hg) Ha) as (Dg & Tg & _).
      unfold is_option in E. rewrite Dg in E. assert (Q : f_name g = f_name f) by (destruct (a_takes a); [now apply streq_spec|now apply streq_spec|discriminate]).
      assert (g = f); [|now subst g]. pose proof (fields_nodup fs HC) as N. clear -N Hf Hg Q.
      induction fs as [|h l IH]; [destruct Hf|]. cbn in N. inversion N as [|? ? N1 N2]; subst. destruct Hf as [->|Hf], Hg as [->|Hg]; [reflexivity| | |now apply IH].
      + exfalso. apply N1. rewrite <- Q. now apply in_map.
      + exfalso. apply N1. rewrite Q. now apply in_map.
    - exfalso. assert (exists a, In a (acts f)) as (a & Ha).
      { unfold acts. destruct (class_cases f) as [C|[C|[C|[HP B]]]].
        1-3: unfold actions_of; rewrite C; eexists; now left.
        rewrite (acts_plain f (fine_all fs HC f Hf) HP B). eexists. now left. }
      pose proof (find_none _ _ E a (in_parser fs f a Hf Ha)) as X. unfold is_option in X.
      destruct (acts_dest f a (fine_all fs HC f Hf) Ha) as (Dg & Tg & _). rewrite Dg, streq_refl in X. destruct (a_takes a); congruence.
  Qed.
  Lemma defaults_field f : In f fs -> gd_get streq (defaults P) (f_name f) = Some (dflt f).
  Proof.
    intros Hf. unfold defaults. rewrite defaults_get. cbn [gd_get]. destruct (find_option f Hf) as (a & -> & Ha). cbn.
    now rewrite (acts_default f a (fine_all fs HC f Hf) Ha).
  Qed.
  Lemma defaults_other k : ~ In k (map f_name fs) -> gd_get streq (defaults P) k = None.
  Proof.
    intros H. unfold defaults. rewrite defaults_get. cbn [gd_get]. destruct (find (is_option k) P) as [a|] eqn:E; [|reflexivity].
    exfalso. apply find_some in E as [Ha E]. destruct Ha as [<-|Ha]; [discriminate|].
    apply in_flat_map in Ha as (g & Hg & Ha). destruct (acts_dest g a (fine_all fs HC g Hg) Ha) as (Dg & Tg & _).
    unfold is_option in E. rewrite Dg in E. apply H. apply in_map_iff. exists g. split; [|exact Hg].
    destruct (a_takes a); [now apply streq_spec|now apply streq_spec|discriminate].
  Qed.

  (** ** Options not seen *)
  Notation unseen := (unseen uni to_float).
  Lemma unseen_app : forall l m ns seen, unseen (l ++ m) ns seen = (do ns' <- unseen l ns seen; unseen m ns' seen).
  Proof.
    induction l as [|a l IH]; intros m ns seen; [reflexivity|]. cbn [app Args.unseen].
    destruct (existsb (same_action a) seen); [apply IH|]. destruct (a_required a); [reflexivity|].
    destruct (a_takes a); try apply IH. destruct (a_default a); try apply IH.
    destruct (arg_convert uni to_float a s) as [v|e]; [|reflexivity]. cbn [bind]. apply IH.
  Qed.
  Lemma unseen_idle : forall l ns seen, (forall a, In a l -> existsb (same_action a) seen = true \/
      (a_required a = false /\ match a_takes a, a_default a with TArgs _, VStr _ => False | _, _ => True end)) ->
    unseen l ns seen = Ok ns.
  Proof.
    induction l as [|a l IH]; intros ns seen H; [reflexivity|]. cbn [Args.unseen].
    assert (IH' : unseen l ns seen = Ok ns) by (apply IH; intros b Hb; apply H; now right).
    destruct (H a (or_introl eq_refl)) as [E|[E1 E2]]; [now rewrite E|]. destruct (existsb (same_action a) seen); [exact IH'|].
    rewrite E1. destruct (a_takes a); try exact IH'. destruct (a_default a); try exact IH'. contradiction.
  Qed.

  Lemma unseen_fields seen (G : field -> Prop) (Gdec : forall f, G f \/ ~ G f) : forall gs ns, incl gs fs -> NoDup (map f_name gs) ->
    (forall f, In f gs -> G f -> forall a, acts f = [a] -> existsb (same_action a) seen = true) ->
    (forall f, In f gs -> ~ G f -> f_required f = true -> f_class f = CBool) ->
    (forall f, In f gs -> ~ G f -> exists v, not_given f v) ->
    (forall f a, In f gs -> ~ G f -> In a (acts f) -> existsb (same_action a) seen = false) ->
    (forall f, In f gs -> ~ G f -> gd_get streq ns (f_name f) = Some (dflt f)) ->
    exists ns', unseen (flat_map acts gs) ns seen = Ok ns' /\
      (forall f v, In f gs -> ~ G f -> not_given f v -> gd_get streq ns' (f_name f) = Some v) /\
      (forall k, (forall f, In f gs -> f_name f = k -> G f) -> gd_get streq ns' k = gd_get streq ns k).
  Proof.
    induction gs as [|f gs IH]; intros ns HI HN H1 H2 H3 H4 H5.
    - exists ns. split; [reflexivity|]. split; [intros ? ? []|reflexivity].
    - cbn [flat_map]. rewrite unseen_app. cbn [map] in HN. inversion HN as [|? ? N1 N2]; subst.
      assert (Hf : In f fs) by (apply HI; now left). assert (Ff := fine_all fs HC f Hf).
      assert (X : exists ns1, unseen (acts f) ns seen = Ok ns1 /\ (forall v, ~ G f -> not_given f v -> gd_get streq ns1 (f_name f) = Some v) /\
         (forall k, (f_name f = k -> G f) -> gd_get streq ns1 k = gd_get streq ns k)).
      { assert (ID : (~ G f -> forall v, not_given f v -> v = dflt f) -> unseen (acts f) ns seen = Ok ns ->
          exists ns1, unseen (acts f) ns seen = Ok ns1 /\ (forall v, ~ G f -> not_given f v -> gd_get streq ns1 (f_name f) = Some v) /\
         (forall k, (f_name f = k -> G f) -> gd_get streq ns1 k = gd_get streq ns k)).
        { intros V E. exists ns. split; [exact E|]. split; [|reflexivity]. intros v Ng Nv. rewrite (V Ng v Nv). apply H5; [now left|exact Ng]. }
        destruct (class_cases f) as [C|[C|[C|[HP B]]]].
        1: { apply ID; [unfold ArgsSpec.not_given, dflt; rewrite C; auto|]. unfold acts, actions_of. rewrite C. apply unseen_idle.
             intros a [<-|[<-|[]]]; right; split; cbn; auto. }
        1: { apply ID; [unfold ArgsSpec.not_given, dflt; rewrite C; auto|]. unfold acts, actions_of. rewrite C. apply unseen_idle.
             intros a [<-|[<-|[]]]; right; split; cbn; auto. }
        1: { apply ID; [unfold ArgsSpec.not_given, dflt; rewrite C; auto|]. unfold acts, actions_of. rewrite C. apply unseen_idle.
             intros a [<-|[]]; right; split; cbn; auto. }
        assert (EA : acts f = [plain_act f]) by (unfold acts; now rewrite (acts_plain f Ff HP B)).
        destruct (Gdec f) as [Gf|Gf].
        - apply ID; [contradiction|]. apply unseen_idle. rewrite EA. intros a [<-|[]]. left. apply (H1 f); [now left|exact Gf|exact EA].
        - assert (S : existsb (same_action (plain_act f)) seen = false) by (apply (H4 f); [now left|exact Gf|rewrite EA; now left]).
          assert (R : f_required f = false) by (destruct (f_required f) eqn:R; [|reflexivity]; exfalso; apply B; apply H2; [now left|exact Gf|exact R]).
          assert (ND : forall v, not_given f v -> match f_default f with None => v = VNone | Some (VStr s) => word_value f s v | Some d => v = d end).
          { intros v. destruct HP as [P1 P2]. unfold ArgsSpec.not_given. destruct (f_class f); try congruence; auto. }
          assert (DF : dflt f = match f_default f with Some v => v | None => VNone end).
          { destruct HP as [P1 P2]. unfold dflt. destruct (f_class f); congruence. }
          rewrite EA in *. cbn [Args.unseen]. rewrite S. unfold plain_act at 1 2 3. cbn [a_required a_takes a_default]. rewrite R.
          destruct (match f_default f with Some v => v | None => VNone end) as [| | |s| | |] eqn:D.
          4: { destruct (f_default f) as [d|] eqn:Fd; [subst d|discriminate].
               destruct (H3 f (or_introl eq_refl) Gf) as (v & Nv). pose proof (ND v Nv) as W.
               rewrite (plain_word f s v HP W). cbn [bind].
               exists (gd_set streq ns (a_dest (plain_act f)) v). split; [reflexivity|]. cbn [plain_act a_dest]. split.
               - intros v' _ Nv'. rewrite (get_set streq streq_spec), streq_refl. pose proof (ND v' Nv') as W'.
                 pose proof (plain_word f s v HP W) as A1. rewrite (plain_word f s v' HP W') in A1. congruence.
               - intros k Hk. rewrite (get_set streq streq_spec). destruct (streq (f_name f) k) eqn:Q; [|reflexivity].
                 apply streq_spec in Q. now apply Hk in Q. }
          all: exists ns; split; [reflexivity|]; split; [|reflexivity]; intros v _ Nv; rewrite (H5 f (or_introl eq_refl) Gf); f_equal;
            apply ND in Nv; rewrite DF; destruct (f_default f) as [dd|]; [subst dd; now symmetry|subst v; congruence]. }
      destruct X as (ns1 & E1 & A1 & B1). rewrite E1. cbn [bind].
      assert (OTHER : forall g, In g gs -> f_name f <> f_name g).
      { intros g Hg Q. apply N1. rewrite Q. now apply in_map. }
      destruct (IH ns1) as (ns2 & E2 & A2 & B2); [intros g Hg; apply HI; now right|exact N2| | | | | |].
      1-4: intros g; intros; eapply H1 + eapply H2 + eapply H3 + eapply H4; try eassumption; now right.
      1: { intros g Hg Gg. rewrite B1; [apply H5; [now right|exact Gg]|]. intros Q. now apply OTHER in Hg. }
      exists ns2. split; [exact E2|]. split.
      + intros g v [<-|Hg] Gg Nv; [|now apply (A2 g v)]. rewrite B2; [now apply A1|]. intros g Hg Q. symmetry in Q. now apply OTHER in Q.
      + intros k Hk. rewrite B2; [|intros g Hg; apply Hk; now right]. apply B1. apply Hk. now left.
  Qed.

  (** ** The whole *)
  Theorem parse_line ps : line_ok uni to_float fs ps ->
    exists ns, parse_known_args unineg uni to_float P (command_line ps) = Ok ns /\
      (forall n v, In (n, v) (values_given ps) -> gd_get streq ns n = Some v) /\
      (forall f v, In f fs -> ~ In (f_name f) (map fst (values_given ps)) -> not_given f v -> gd_get streq ns (f_name f) = Some v) /\
      (forall k, ~ In k (map f_name fs) -> gd_get streq ns k = None).
  Proof.
    intros [L1 L2 L3 L4]. destruct (tokens_of [] [] eq_refl ps L1) as (tss & TF & TE). rewrite !app_nil_r in TE.
    destruct (consume_parts [] I ps tss (defaults P) [] TF L2) as (ns & seen & E1 & E2 & E3 & _ & E5'); [intros b []|intros b []|].
    rewrite app_nil_r in E1. change (consume [] 0 (ns, seen)) with (Ok (ns, seen)) in E1.
    pose proof (parts_given ps seen E5') as E5.
    set (G := fun f => In (f_name f) (map fst (values_given ps))).
    assert (SEEN : forall b, In b seen -> In b P /\ In (a_dest b) (map fst (values_given ps))).
    { intros b Hb. destruct (E3 b Hb) as [[]|X]. exact X. }
    assert (HELP : existsb (same_action help_action) seen = false).
    { apply not_true_is_false. rewrite existsb_exists. intros (b & Hb & Q). destruct (SEEN b Hb) as [Pb Db].
      apply (same_action_eq P (names_nodup fs HC)) in Q; [|now left|exact Pb]. subst b. cbn in Db.
      destruct (E5 _ Db) as (f & b & Hf & Nf & _). pose proof (ac_ident fs HC f Hf) as [I _]. now apply I. }
    assert (KNOWN : forall k, In k (map fst (values_given ps)) -> In k (map f_name fs)).
    { intros k Hk. destruct (E5 k Hk) as (f & _ & Hf & <- & _). now apply in_map. }
    assert (UNIQ : forall f g, In f fs -> In g fs -> f_name f = f_name g -> f = g).
    { pose proof (fields_nodup fs HC) as N. clear - N. intros f g Hf Hg Q.
      induction fs as [|h l IH]; [destruct Hf|]. cbn in N. inversion N as [|? ? N1 N2]; subst. destruct Hf as [->|Hf], Hg as [->|Hg]; [reflexivity| | |now apply IH].
      - exfalso. apply N1. rewrite Q. now apply in_map.
      - exfalso. apply N1. rewrite <- Q. now apply in_map. }
    destruct (unseen_fields seen G) with (gs := fs) (ns := ns) as (ns2 & U1 & U2 & U3).
    - intros f. unfold G. destruct (in_dec (list_eq_dec Z.eq_dec) (f_name f) (map fst (values_given ps))); auto.
    - apply incl_refl.
    - apply (fields_nodup fs HC).
    - intros f Hf Gf a Ea. destruct (E5 _ Gf) as (g & b & Hg & Ng & Hb & Sb). apply UNIQ in Ng; [|exact Hg|exact Hf]. subst g.
      rewrite Ea in Hb. destruct Hb as [<-|[]]. apply existsb_exists. exists a. split; [exact Sb|]. apply same_action_refl.
      destruct (acts_dest f a (fine_all fs HC f Hf)) as (_ & _ & o & -> & _); [rewrite Ea; now left|discriminate].
    - intros f Hf Gf R. destruct (class_cases f) as [C|C]; [exact C|]. exfalso. apply Gf. apply L3; [exact Hf|exact R|].
      destruct C as [C|[C|[_ C]]]; congruence.
    - intros f Hf Gf. now apply L4.
    - intros f a Hf Gf Ha. apply not_true_is_false. rewrite existsb_exists. intros (b & Hb & Q). destruct (SEEN b Hb) as [Pb Db].
      apply (same_action_eq P (names_nodup fs HC)) in Q; [|now apply (in_parser fs f)|exact Pb]. subst b.
      destruct (acts_dest f a (fine_all fs HC f Hf) Ha) as (D & _ & _). rewrite D in Db. now apply Gf.
    - intros f Hf Gf. rewrite E2. rewrite (proj2 (DictFacts.get_none streq streq_spec _ _) Gf). now apply defaults_field.
    - exists ns2. unfold parse_known_args. rewrite TE. cbn [bind]. rewrite E1. cbn [bind].
      assert (UA : unseen P ns seen = Ok ns2).
      { unfold parser. cbn [Args.unseen]. rewrite HELP. cbn [help_action a_required a_takes]. exact U1. }
      rewrite UA. cbn [bind].
      assert (GR : groups_ok P seen = true).
      { unfold groups_ok. apply forallb_forall. intros a Ha. destruct Ha as [<-|Ha]; [reflexivity|].
        apply in_flat_map in Ha as (f & Hf & Ha). destruct (a_group a) as [[|]|] eqn:Gr; [|reflexivity|reflexivity].
        assert (Gf : G f).
        { apply L3; [exact Hf| |].
          - revert Ha Gr. unfold acts. destruct (class_cases f) as [C|[C|[C|[HP B]]]].
            1-3: unfold actions_of; rewrite C; cbn [In]; intuition (subst; cbn in *; congruence).
            rewrite (acts_plain f (fine_all fs HC f Hf) HP B). intros [<-|[]]; discriminate.
          - intros C. revert Ha Gr. unfold acts, actions_of. rewrite C. cbn [In]; intuition (subst; cbn in *; congruence). }
        destruct (E5 _ Gf) as (g & b & Hg & Ng & Hb & Sb). apply existsb_exists. exists b. split; [exact Sb|].
        destruct (acts_dest g b (fine_all fs HC g Hg) Hb) as (-> & _ & _).
        destruct (acts_dest f a (fine_all fs HC f Hf) Ha) as (-> & _ & _). now apply streq_spec. }
      rewrite GR. split; [reflexivity|]. split; [|split].
      + intros n v Hnv. assert (Gn : In n (map fst (values_given ps))) by (apply in_map_iff; now exists (n, v)).
        rewrite U3; [|intros f Hf Q; unfold G; now rewrite Q]. rewrite E2. now rewrite (in_get streq streq_spec _ _ _ L2 Hnv).
      + intros f v Hf Gf Nv. now apply (U2 f v).
      + intros k Hk. rewrite U3; [|intros f Hf Q; exfalso; apply Hk; rewrite <- Q; now apply in_map]. rewrite E2.
        rewrite (proj2 (DictFacts.get_none streq streq_spec _ _)); [now apply defaults_other|]. intros X. now apply Hk, KNOWN.
  Qed.
End read.
