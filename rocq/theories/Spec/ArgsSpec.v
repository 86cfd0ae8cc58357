(** Command lines of a class, and the instances that come back from their own. *)
From Verif Require Export Spec.StructureSpec Model.Args.
Open Scope Z_scope.

(** the options of a field *)
Definition options (f : field) : list pystr :=
  match f_class f with
  | CBool => [flag (f_name f ++ lit "_off"); flag (f_name f)]
  | CList => [flag (f_name f); flag (f_name f ++ lit "s")]
  | _ => [flag (f_name f)]
  end.
Definition all_options (fs : list field) : list pystr := lit "--help" :: flat_map options fs.

(** Classes that can have a parser: all options differ, and none takes exactly no argument. *)
Record args_class (fs : list field) : Prop := {
  ac_ident : forall f, In f fs -> ident (f_name f);
  ac_options : NoDup (all_options fs);
  ac_nargs : forall f, In f fs -> plain_class (f_class f) -> f_class f <> CBool -> f_nargs f <> Some (NNum 0) }.

(** what argparse takes for an argument: no dash at the beginning, or a dash alone, or a negative number *)
Definition digits (s : pystr) : Prop := Forall (fun c => 48 <= c <= 57) s.
Definition argument (s : pystr) : Prop :=
  (forall c s', s = c :: s' -> c <> dash) \/ s = [dash] \/
  (exists ds, s = dash :: ds /\ ds <> [] /\ digits ds) \/
  (exists ds fs, s = dash :: ds ++ dot :: fs /\ digits ds /\ fs <> [] /\ digits fs).

(** [t] may stand for the option [o]: it is the beginning of no other, unless it is the option itself *)
Definition stands_for (fs : list field) (t o : pystr) : Prop :=
  t = o \/
  (exists n rest, t = flag n /\ n <> [] /\ o = t ++ rest /\
     forall o' rest', In o' (all_options fs) -> o' = t ++ rest' -> o' = o).
(** an option that means nothing to the class *)
Definition stranger (fs : list field) (t : pystr) : Prop :=
  exists n, t = flag n /\ ident n /\ forall o rest, In o (all_options fs) -> o <> t ++ rest.

Section reads.
  Variable uni : pystr -> option Z.
  Variable to_float : pval -> option pval.

  (** a word, for the class of the field *)
  Definition word_value (f : field) (w : pystr) (v : pval) : Prop :=
    match f_class f with
    | CInt => exists n, int_of_str uni w = Some n /\ v = VInt n
    | CFloat => to_float (VStr w) = Some v
    | _ => v = VStr w
    end.

  (** the option [o] of the field with these words gives the field this value *)
  Inductive gives (f : field) : pystr -> list pystr -> pval -> Prop :=
  | gives_on : f_class f = CBool -> gives f (flag (f_name f)) [] (VBool true)
  | gives_off : f_class f = CBool -> gives f (flag (f_name f ++ lit "_off")) [] (VBool false)
  | gives_list w : f_class f = CList -> gives f (flag (f_name f)) [w] (VStr w)
  | gives_lists w ws : f_class f = CList -> gives f (flag (f_name f ++ lit "s")) (w :: ws) (VList (map VStr (w :: ws)))
  | gives_keyed w ws : f_class f = CKeyed -> gives f (flag (f_name f)) (w :: ws) (VList (map VStr (w :: ws)))
  | gives_plain w v : plain_class (f_class f) -> f_class f <> CBool -> f_nargs f = None ->
      word_value f w v -> choice_ok f v -> gives f (flag (f_name f)) [w] v
  | gives_query w v : plain_class (f_class f) -> f_class f <> CBool -> f_nargs f = Some NQuery ->
      word_value f w v -> choice_ok f v -> gives f (flag (f_name f)) [w] v
  | gives_nothing : plain_class (f_class f) -> f_class f <> CBool -> f_nargs f = Some NQuery ->
      gives f (flag (f_name f)) [] VNone
  | gives_many n ws vs : plain_class (f_class f) -> f_class f <> CBool -> f_nargs f = Some n ->
      match n with NPlus => ws <> [] | NStar => True | NQuery => False | NNum k => Z.of_nat (length ws) = k end ->
      Forall2 (fun w v => word_value f w v /\ choice_ok f v) ws vs -> gives f (flag (f_name f)) ws (VList vs).

  (** The parts of a command line: an option with the words after it, an option with its only word after an equals
      sign, and an option of somebody else with words. *)
  Inductive part :=
  | Option_words (f : field) (t : pystr) (ws : list pystr) (v : pval)
  | Option_equals (f : field) (t w : pystr) (v : pval)
  | Stranger (t : pystr) (ws : list pystr).
  Definition part_args (p : part) : list pystr :=
    match p with
    | Option_words _ t ws _ | Stranger t ws => t :: ws
    | Option_equals _ t w _ => [t ++ 61 :: w]
    end.
  Definition command_line (ps : list part) : list pystr := flat_map part_args ps.
  Definition part_field (p : part) : list (pystr * pval) :=
    match p with
    | Option_words f _ _ v | Option_equals f _ _ v => [(f_name f, v)]
    | Stranger _ _ => []
    end.
  (** the values given *)
  Definition values_given (ps : list part) : list (pystr * pval) := flat_map part_field ps.

  (** After an equals sign there may be anything but two dashes. *)
  Definition part_ok (fs : list field) (p : part) : Prop :=
    match p with
    | Option_words f t ws v => In f fs /\ Forall argument ws /\ exists o, stands_for fs t o /\ gives f o ws v
    | Option_equals f t w v => In f fs /\ w <> [dash; dash] /\ exists o, stands_for fs t o /\ gives f o [w] v
    | Stranger t ws => stranger fs t /\ Forall argument ws
    end.

  (** what argparse puts in for a field that is not given *)
  Definition not_given (f : field) (v : pval) : Prop :=
    match f_class f with
    | CBool => v = match f_default f with Some d => d | None => the_empty end
    | CList | CKeyed => v = VNone
    | _ => match f_default f with
           | None => v = VNone
           | Some (VStr s) => word_value f s v
           | Some d => v = d
           end
    end.

  (** A command line that is accepted: no field is given twice, all required ones but Booleans are given, and defaults
      that are texts can be converted. *)
  Record line_ok (fs : list field) (ps : list part) : Prop := {
    lo_parts : forall p, In p ps -> part_ok fs p;
    lo_once : NoDup (map fst (values_given ps));
    lo_required : forall f, In f fs -> f_required f = true -> f_class f <> CBool -> In (f_name f) (map fst (values_given ps));
    lo_default : forall f, In f fs -> ~ In (f_name f) (map fst (values_given ps)) -> exists v, not_given f v }.

  (** no value of the field is written like this *)
  Definition unreadable (f : field) (w : pystr) : Prop := forall v, word_value f w v -> ~ choice_ok f v.

  (** words that an option does not accept: too few, or one that is no value *)
  Inductive refuses (f : field) : pystr -> list pystr -> Prop :=
  | refuses_list o : f_class f = CList -> In o (options f) -> refuses f o []
  | refuses_keyed : f_class f = CKeyed -> refuses f (flag (f_name f)) []
  | refuses_none : plain_class (f_class f) -> f_class f <> CBool -> f_nargs f = None \/ f_nargs f = Some NPlus ->
      refuses f (flag (f_name f)) []
  | refuses_few k ws : plain_class (f_class f) -> f_class f <> CBool -> f_nargs f = Some (NNum k) ->
      Z.of_nat (length ws) < k -> refuses f (flag (f_name f)) ws
  | refuses_first w ws : plain_class (f_class f) -> f_class f <> CBool -> f_nargs f = None \/ f_nargs f = Some NQuery ->
      unreadable f w -> refuses f (flag (f_name f)) (w :: ws)
  | refuses_any w ws : plain_class (f_class f) -> f_class f <> CBool -> f_nargs f = Some NPlus \/ f_nargs f = Some NStar ->
      In w ws -> unreadable f w -> refuses f (flag (f_name f)) ws
  | refuses_number k w ws : plain_class (f_class f) -> f_class f <> CBool -> f_nargs f = Some (NNum k) ->
      In w (firstn (Z.to_nat k) ws) -> unreadable f w -> refuses f (flag (f_name f)) ws.
End reads.

Section returns.
  Variable literal_eval : pystr -> option pval.
  Variable uninumeric : pystr -> bool.
  Variable is_float : pystr -> bool.
  Variable to_float : pval -> option pval.

  (** one word on a command line that is split at spaces *)
  Definition one_word (s : pystr) : Prop := argument s /\ ~ In 32 s.

  (** a value in one piece that its class reads from its text *)
  Definition one_value (f : field) (v : pval) : Prop :=
    match f_class f with
    | CInt => exists n, v = VInt n
    | CFloat => exists s, v = VOther s /\ is_float s = true /\ argument (keep_allowed s) /\ to_float (VStr (keep_allowed s)) = Some v
    | CBool => exists b, v = VBool b
    | _ => exists s, v = VStr s /\ one_word s
    end.
  Definition returns (f : field) (v : pval) : Prop :=
    match f_class f with
    | CList | CKeyed => typed literal_eval uninumeric is_float f v /\ exists t, value_text v t /\ argument t
    | CBool => f_nargs f = None /\ one_value f v /\ choice_ok f v
    | _ =>
        match f_nargs f with
        | None => one_value f v /\ choice_ok f v
        | Some n => match n with NNum k => k = 1 | _ => True end /\
            exists x, v = VList [x] /\ one_value f x /\ choice_ok f x /\ forall s, x = VStr s -> Forall safe s
        end
    end.
  Definition all_return (fs : list field) (inst : attrs) : Prop :=
    forall f, In f fs -> exists v, get_attr inst (f_name f) = Some v /\ returns f v.
End returns.

Definition with_default (d : pval) (f : field) : field :=
  Field (f_name f) (f_class f) (f_req f) (f_keyword f) (f_positional f) (f_transient f) (Some d) (f_constant f) (f_choices f) (f_nargs f).
Definition with_nargs (n : nargs_opt) (f : field) : field :=
  Field (f_name f) (f_class f) (f_req f) (f_keyword f) (f_positional f) (f_transient f) (f_default f) (f_constant f) (f_choices f) (Some n).

(** the attribute: with nargs it is a list *)
Definition attribute (f : field) (v : pval) : pval :=
  match f_nargs f, v with
  | None, _ => v
  | Some _, VList l => VList l
  | Some _, _ => VList [v]
  end.
