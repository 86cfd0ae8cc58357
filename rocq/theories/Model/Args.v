(** datasets.py:95-147, 240-286, 317-319, 544-577, 825-834, 923-925: the command line of a Structure, with the part of
    argparse that it uses (options only, as in Python 3.4). Not modelled: Struct fields, and what argparse prints. *)
From Verif Require Export Model.Structures.
Open Scope Z_scope.

(** "--{}".format(name) *)
Definition flag (name : pystr) : pystr := dash :: dash :: name.

(** What an option takes: as many arguments as [nargs] says (one without nargs), or none and the constant is stored, or
    it prints the help and ends the program. *)
Inductive takes := TArgs (n : option nargs_opt) | TConst (v : pval) | THelp.

(** An option: its names, the attribute it sets, what it takes, the type ([CStr], [CInt], [CFloat]; others convert
    nothing) and the choices of its arguments, its default, whether it is required; [a_group] tells that it is in a
    mutually exclusive group with the options that set the same attribute, and whether the group is required. *)
Record action := Action {
  a_names : list pystr; a_dest : pystr; a_takes : takes; a_type : fclass; a_choices : option (pval -> bool);
  a_default : pval; a_required : bool; a_group : option bool }.

(** what add_help=True adds *)
Definition help_action : action := Action [lit "-h"; lit "--help"] [] THelp CAny None VNone false None.

(** datasets.py:95-112, 251-258, 282-286, 317-319. [nargs=0] is refused by argparse. *)
Definition actions_of (f : field) : result (list action) :=
  let n := f_name f in
  match f_class f with
  | CBool =>
      let d := match f_default f with Some v => v | None => the_empty end in
      Ok [ Action [flag (n ++ lit "_off")] n (TConst (VBool false)) CAny None d false (Some false);
           Action [flag n] n (TConst (VBool true)) CAny None d false (Some false) ]
  | CList =>
      Ok [ Action [flag n] n (TArgs None) CAny None VNone false (Some (f_required f));
           Action [flag (n ++ lit "s")] n (TArgs (Some NPlus)) CAny None VNone false (Some (f_required f)) ]
  | CKeyed => Ok [ Action [flag n] n (TArgs (Some NPlus)) CAny None VNone false (Some (f_required f)) ]
  | c =>
      match f_nargs f with
      | Some (NNum 0) => Err ValueError
      | na => Ok [ Action [flag n] n (TArgs na) c (f_choices f)
                     (match f_default f with Some v => v | None => VNone end) (f_required f) None ]
      end
  end.

Definition has_name (s : pystr) (a : action) : bool := existsb (streq s) (a_names a).

(** argparse: two options with one name are an error *)
Fixpoint add_actions (acts new : list action) : result (list action) :=
  match new with
  | [] => Ok acts
  | a :: new' =>
      if existsb (fun s => existsb (has_name s) acts) (a_names a) then Err ArgumentError
      else add_actions (acts ++ [a]) new'
  end.

(** datasets.py:831-834 *)
Fixpoint add_fields (acts : list action) (fs : list field) : result (list action) :=
  match fs with
  | [] => Ok acts
  | f :: fs' => do new <- actions_of f; do acts' <- add_actions acts new; add_fields acts' fs'
  end.

(** datasets.py:825-829 *)
Definition get_parser (fs : list field) : result (list action) := add_fields [help_action] fs.

(** [s.split(c, 1)] *)
Fixpoint cut (c : Z) (s : pystr) : pystr * option pystr :=
  match s with
  | [] => ([], None)
  | a :: s' => if a =? c then ([], Some s') else let (b, r) := cut c s' in (a :: b, r)
  end.

(** What an argument is for argparse: an argument of an option, the two dashes, an option (perhaps with the argument
    after an equals sign), or an option that is not known. *)
Inductive token := IsArg | IsDashes | IsOption (a : action) (explicit : option pystr) | IsUnknown.

Section parse.
  (** Whether a text outside ASCII looks like a negative number; [int] of such a text; [float] of a text *)
  Variable unineg : pystr -> bool.
  Variable uni : pystr -> option Z.
  Variable to_float : pval -> option pval.

  (** argparse: [^-\d+$|^-\d*\.\d+$] *)
  Definition drop_newline (s : pystr) : pystr :=
    match rev s with c :: r => if c =? 10 then rev r else s | [] => s end.
  Definition negative_number (s : pystr) : bool :=
    if forallb (fun c => (0 <=? c) && (c <? 128)) s then
      match drop_newline s with
      | c :: t =>
          (c =? dash) &&
          match cut dot t with
          | (ds, None) => match ds with [] => false | _ => forallb is_digit ds end
          | (ds, Some []) => false
          | (ds, Some fs) => forallb is_digit ds && forallb is_digit fs
          end
      | [] => false
      end
    else unineg s.

  (** the options that may be meant: for two dashes those that begin like the text before an equals sign; for one dash
      those called by the first letter, the rest being the argument, or that begin like the text *)
  Definition candidates (acts : list action) (s : pystr) : list (action * option pystr) :=
    let names := flat_map (fun a => map (fun n => (a, n)) (a_names a)) acts in
    match s with
    | _ :: c :: _ =>
        if c =? dash then
          let (before, after) := cut 61 s in
          map (fun p => (fst p, after)) (filter (fun p => is_prefix before (snd p)) names)
        else
          flat_map (fun p => if streq (snd p) (firstn 2 s) then [(fst p, Some (skipn 2 s))]
                             else if is_prefix s (snd p) then [(fst p, None)] else []) names
    | _ => []
    end.

  (** argparse: _parse_optional *)
  Definition classify (acts : list action) (s : pystr) : result token :=
    match s with
    | [] => Ok IsArg
    | c :: rest =>
        if negb (c =? dash) then Ok IsArg
        else match find (has_name s) acts with
        | Some a => Ok (IsOption a None)
        | None =>
            match rest with
            | [] => Ok IsArg
            | _ =>
                match (match cut 61 s with
                       | (before, Some after) =>
                           match find (has_name before) acts with Some a => Some (a, after) | None => None end
                       | _ => None
                       end) with
                | Some (a, after) => Ok (IsOption a (Some after))
                | None =>
                    match candidates acts s with
                    | [(a, e)] => Ok (IsOption a e)
                    | _ :: _ :: _ => Err SystemExit
                    | [] => if negative_number s then Ok IsArg else if has_char 32 s then Ok IsArg else Ok IsUnknown
                    end
                end
            end
        end
    end.

  (** all arguments; after two dashes no options *)
  Fixpoint classify_all (acts : list action) (args : list pystr) : result (list (pystr * token)) :=
    match args with
    | [] => Ok []
    | s :: args' =>
        if streq s [dash; dash] then Ok ((s, IsDashes) :: map (fun t => (t, IsArg)) args')
        else do t <- classify acts s; do ts <- classify_all acts args'; Ok ((s, t) :: ts)
    end.

  (** the arguments right after an option *)
  Fixpoint leading (ts : list (pystr * token)) : list pystr :=
    match ts with
    | (s, IsArg) :: ts' => s :: leading ts'
    | _ => []
    end.

  (** how many of [k] arguments the option takes *)
  Definition how_many (n : option nargs_opt) (k : nat) : option nat :=
    match n with
    | None => if (1 <=? k)%nat then Some 1%nat else None
    | Some NQuery => Some (Nat.min 1 k)
    | Some NStar => Some k
    | Some NPlus => if (1 <=? k)%nat then Some k else None
    | Some (NNum m) => if (Z.to_nat m <=? k)%nat then Some (Z.to_nat m) else None
    end.

  (** argparse: _get_value *)
  Definition arg_convert (a : action) (s : pystr) : result pval :=
    match a_type a with
    | CInt => match int_of_str uni s with Some n => Ok (VInt n) | None => Err SystemExit end
    | CFloat => match to_float (VStr s) with Some v => Ok v | None => Err SystemExit end
    | _ => Ok (VStr s)
    end.
  Definition arg_value (a : action) (s : pystr) : result pval :=
    do v <- arg_convert a s;
    match a_choices a with
    | Some ok => if ok v then Ok v else Err SystemExit
    | None => Ok v
    end.

  (** argparse: _get_values. The first two dashes are dropped. *)
  Definition arg_values (a : action) (n : option nargs_opt) (args : list pystr) : result pval :=
    let args := remove_first [dash; dash] args in
    match n with
    | None => match args with s :: _ => arg_value a s | [] => Err ValueError end
    | Some NQuery => match args with s :: _ => arg_value a s | [] => Ok VNone end
    | _ => do l <- mapM (arg_value a) args; Ok (VList l)
    end.

  (** The attributes of the namespace and the options seen. *)
  Definition pstate : Type := list (pystr * pval) * list action.
  Definition same_action (a b : action) : bool :=
    match a_names a with s :: _ => has_name s b | [] => false end.

  (** argparse: take_action *)
  Definition store (a : action) (v : pval) (st : pstate) : result pstate :=
    let (ns, seen) := st in
    if (match a_group a with Some _ => true | None => false end) &&
       existsb (fun b => streq (a_dest b) (a_dest a) && negb (same_action a b)) seen
    then Err SystemExit
    else Ok (gd_set streq ns (a_dest a) v, a :: seen).

  (** argparse: consume_optional; also the number of arguments used *)
  Definition take_option (a : action) (explicit : option pystr) (ts : list (pystr * token)) (st : pstate)
    : result (nat * pstate) :=
    match a_takes a with
    | THelp => Err SystemExit
    | TConst v =>
        match explicit with
        | Some _ => Err SystemExit
        | None => do st' <- store a v st; Ok (0%nat, st')
        end
    | TArgs n =>
        match explicit with
        | Some e =>
            match how_many n 1 with
            | Some 1%nat => do v <- arg_values a n [e]; do st' <- store a v st; Ok (0%nat, st')
            | _ => Err SystemExit
            end
        | None =>
            let args := leading ts in
            match how_many n (length args) with
            | Some k => do v <- arg_values a n (firstn k args); do st' <- store a v st; Ok (k, st')
            | None => Err SystemExit
            end
        end
    end.

  (** argparse: the loop of _parse_known_args; [skip] arguments belong to the option before. Everything else goes to
      the second result of parse_known_args, which is not used. *)
  Fixpoint consume (ts : list (pystr * token)) (skip : nat) (st : pstate) : result pstate :=
    match ts with
    | [] => Ok st
    | (s, t) :: ts' =>
        match skip with
        | S k => consume ts' k st
        | O =>
            match t with
            | IsOption a e => do (k, st') <- take_option a e ts' st; consume ts' k st'
            | _ => consume ts' 0 st
            end
        end
    end.

  (** the defaults *)
  Definition defaults (acts : list action) : list (pystr * pval) :=
    fold_left (fun ns a => match a_takes a with
                           | THelp => ns
                           | _ => if gd_mem streq ns (a_dest a) then ns else gd_set streq ns (a_dest a) (a_default a)
                           end) acts [].

  (** the options not seen: an error if required, else a default that is a text is converted; then the groups *)
  Fixpoint unseen (acts : list action) (ns : list (pystr * pval)) (seen : list action) : result (list (pystr * pval)) :=
    match acts with
    | [] => Ok ns
    | a :: acts' =>
        if existsb (same_action a) seen then unseen acts' ns seen
        else if a_required a then Err SystemExit
        else match a_takes a, a_default a with
             | TArgs _, VStr s => do v <- arg_convert a s; unseen acts' (gd_set streq ns (a_dest a) v) seen
             | _, _ => unseen acts' ns seen
             end
    end.
  Definition groups_ok (acts seen : list action) : bool :=
    forallb (fun a => match a_group a with
                      | Some true => existsb (fun b => streq (a_dest b) (a_dest a)) seen
                      | _ => true
                      end) acts.

  (** parse_known_args(args)[0], as a dictionary *)
  Definition parse_known_args (acts : list action) (args : list pystr) : result (list (pystr * pval)) :=
    do ts <- classify_all acts args;
    do (ns, seen) <- consume ts 0 (defaults acts, []);
    do ns' <- unseen acts ns seen;
    if groups_ok acts seen then Ok ns' else Err SystemExit.
End parse.

Section args.
  (** see Model/Structures.v *)
  Variable literal_eval : pystr -> option pval.
  Variable uni : pystr -> option Z.
  Variable uninumeric : pystr -> bool.
  Variable pval_eq : pval -> pval -> bool.
  Variable other_int : pystr -> option Z.
  Variable is_float : pystr -> bool.
  Variable to_float : pval -> option pval.
  Variable to_str : pval -> pystr.
  Variable other_true : pystr -> bool.
  Variable unineg : pystr -> bool.
  Notation construct := (construct literal_eval uni uninumeric other_int is_float to_float to_str other_true).

  (** datasets.py:561-569 *)
  Definition from_args (fs : list field) (inherited : list pystr) (args : list pystr) : result attrs :=
    do acts <- get_parser fs;
    do ns <- parse_known_args unineg uni to_float acts args;
    construct fs inherited ns.

  (** datasets.py:571-573 *)
  Definition from_string (fs : list field) (inherited : list pystr) (s : pystr) : result attrs :=
    from_args fs inherited (split 32 s).

  (** datasets.py:544-559: lists of arguments, texts and dictionaries *)
  Inductive wildcard := WArgs (args : list pystr) | WText (s : pystr) | WDict (kw : list (pystr * pval)).
  Definition from_wildcard (fs : list field) (inherited : list pystr) (w : wildcard) : result attrs :=
    match w with
    | WArgs args => from_args fs inherited args
    | WText s =>
        if contains [dash; dash] s then from_string fs inherited s
        else from_dir_string literal_eval uni uninumeric pval_eq other_int is_float to_float to_str other_true fs inherited s
    | WDict kw => construct fs inherited kw
    end.

  (** datasets.py:137-147, 260-265. A text is not cleaned. *)
  Definition field_arg_string (f : field) (inst : attrs) : result pystr :=
    match f_class f with
    | CBool =>
        match gd_get streq inst (f_name f) with
        | None => Err AttributeError
        | Some None => Ok (flag (f_name f))
        | Some (Some v) => Ok (if truth other_true v then flag (f_name f) else flag (f_name f ++ lit "_off"))
        end
    | _ =>
        match get_attr inst (f_name f) with
        | None => Ok []
        | Some v =>
            do t <- (match v with VStr s => Ok s | _ => clean_string v end);
            Ok (flag (f_name f) ++ 32 :: t)
        end
    end.

  (** datasets.py:923-925 *)
  Definition get_arg_string (fs : list field) (inst : attrs) : result pystr :=
    do parts <- mapM (fun f => field_arg_string f inst) fs; Ok (join [32] parts).
End args.
