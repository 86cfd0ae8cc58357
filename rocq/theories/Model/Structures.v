(** datasets.py:34-232, 280-343, 350-401, 536-691, 697-772: Parsables and Structures, their directory
    strings and their construction from keywords. Not modelled here: Struct (a Parsable that holds a
    Structure; see Model/Nested.v), the [constructor] argument, argparse (Model/Args.v), and the log files. *)
From Verif Require Export Model.FileNames Model.PosixPath.
Open Scope Z_scope.

(** The classes of Parsable: the base class, String or Dir, Integer, Float, Boolean, Listable, Keyed
    (datasets.py:213-343). *)
Inductive fclass := CAny | CStr | CInt | CFloat | CBool | CList | CKeyed.

(** the [nargs] argument: '+', '*', '?' or a number *)
Inductive nargs_opt := NPlus | NStar | NQuery | NNum (n : Z).

(** datasets.py:62-88. [None] in [f_default] and [f_constant] is the class [empty]; [f_choices] tells
    whether a value is among the choices. *)
Record field := Field {
  f_name : pystr; f_class : fclass; f_req : bool; f_keyword : bool; f_positional : bool;
  f_transient : bool; f_default : option pval; f_constant : option pval;
  f_choices : option (pval -> bool); f_nargs : option nargs_opt }.

(** datasets.py:78-83: nargs decides whether the parameter is required. ([nargs=0] counts as no nargs.) *)
Definition f_required (f : field) : bool :=
  match f_nargs f with
  | Some NPlus => true
  | Some (NNum 0) => f_req f
  | Some _ => false
  | None => f_req f
  end.
Definition nargs_of (f : field) : option nargs_opt :=
  match f_nargs f with Some (NNum 0) => None | o => o end.

(** An instance: its attributes. The class [empty] as attribute (set by Keyed) is [None]. *)
Definition attrs := list (pystr * option pval).
Definition get_attr (a : attrs) (n : pystr) : option pval :=
  match gd_get streq a n with Some (Some v) => Some v | _ => None end.

(** the class object [empty] inside a list *)
Definition the_empty : pval := VOther (lit "<class 'datasets.empty'>").

(** datasets.py:115-131 with [code='-'], and Keyed.stringify (datasets.py:320-324), which does the same:
    format_param cleans the text again. *)
Definition field_text (value : pval) : result pystr :=
  do t <- (match value with VStr s => Ok s | _ => clean_string value end);
  clean_string (VStr t).
Definition stringify (f : field) (value : pval) (remove_name : bool) : result pystr :=
  do t <- field_text value;
  Ok (if f_keyword f && negb remove_name then f_name f ++ [dash] ++ t else t).

(** datasets.py:697-723 *)
Fixpoint nonpos_loop (inst : attrs) (fs : list field) (npnk : option pystr) (args : list pystr)
  : result (option pystr * list pystr) :=
  match fs with
  | [] => Ok (npnk, args)
  | v :: fs' =>
      if f_transient v || f_positional v then nonpos_loop inst fs' npnk args
      else match get_attr inst (f_name v) with
           | None => if f_required v then Err TypeError else nonpos_loop inst fs' npnk args
           | Some val =>
               if f_keyword v then
                 do s <- stringify v val false; nonpos_loop inst fs' npnk (args ++ [s])
               else match npnk with
                    | Some _ => Err TypeError
                    | None => do s <- stringify v val false; nonpos_loop inst fs' (Some s) args
                    end
           end
  end.
Definition get_nonpos_string (inst : attrs) (fs : list field) : result pystr :=
  do (npnk, args) <- nonpos_loop inst fs None [];
  let args := sort strle args in
  Ok (join [underscore] (match npnk with Some s => s :: args | None => args end)).

(** datasets.py:725-765; the branch that would use the undefined [npnk] cannot be reached. *)
Fixpoint pos_loop (inst : attrs) (fs : list field) : result (list pystr) :=
  match fs with
  | [] => Ok []
  | v :: fs' =>
      if f_transient v || negb (f_positional v) then pos_loop inst fs'
      else match get_attr inst (f_name v) with
           | None => if f_required v then Err TypeError else pos_loop inst fs'
           | Some val => do s <- stringify v val false; do rest <- pos_loop inst fs'; Ok (s :: rest)
           end
  end.
Definition get_dir_string (fs : list field) (inst : attrs) : result pystr :=
  do args <- pos_loop inst fs;
  do key_string <- get_nonpos_string inst fs;
  let args := match key_string with [] => args | _ => args ++ [key_string] end in
  Ok (match args with [] => [] | a :: rest => path_join a rest end).

(** datasets.py:536-538 *)
Definition has_keyword (fs : list field) : bool :=
  existsb (fun f => f_keyword f && negb (f_transient f)) fs.

(** datasets.py:350-358, 541-542 *)
Definition has_npnk (fs : list field) : result (option pystr) :=
  match map f_name (filter (fun f => negb (f_positional f) && negb (f_keyword f) && negb (f_transient f)) fs) with
  | [] => Ok None
  | [n] => Ok (Some n)
  | _ => Err TypeError
  end.

Section deep.
  (** see Model/FileNames.v *)
  Variable literal_eval : pystr -> option pval.
  Variable uni : pystr -> option Z.
  Variable uninumeric : pystr -> bool.
  Notation de := (de_string literal_eval uni uninumeric).

  (** helpers.py:194-281 for any value: literal_eval of something that is not a string raises
      ValueError, lists are treated element by element, a dictionary is iterated over its keys.
      [VOther] is taken for something that cannot be iterated over. *)
  Fixpoint de_value (v : pval) : result pval :=
    match v with
    | VStr s => de s
    | VList l =>
        do l' <- (fix go (l : list pval) : result (list pval) :=
                    match l with
                    | [] => Ok []
                    | x :: l' => do y <- de_value x; do ys <- go l'; Ok (y :: ys)
                    end) l;
        Ok (VList l')
    | VDict d => do l <- mapM (fun p => de (fst p)) d; Ok (VList l)
    | _ => Ok v
    end.

  (** helpers.py:139-156. A dictionary can be iterated over and stays as it is. *)
  Definition listify (v : pval) : list pval :=
    match v with
    | VNone => []
    | VList l => l
    | VDict d => map (fun p => VStr (fst p)) d
    | _ => [v]
    end.

  (** helpers.py:194-281 of a string with [suppress_eval=True] *)
  Definition de_string_noeval (value : pystr) : result pval :=
    if isnumeric uninumeric value then
      match int_of_str uni value with Some n => Ok (VInt n) | None => Err ValueError end
    else if has_char underscore value then
      do d <- split_params literal_eval uni uninumeric value; Ok (VDict d)
    else if has_char dash value && (1 <? Z.of_nat (length value)) then
      do l <- mapM de (split dash value); Ok (VList l)
    else Ok (VStr value).

  (** datasets.py:133-137, 307-309 (for a string; other values iterate as they are), 326-327 *)
  Definition field_de_string (c : fclass) (value : pval) : result pval :=
    match c with
    | CList =>
        do v <- (match value with VStr s => de_string_noeval s | _ => de_value value end);
        do l <- mapM de_value (listify v); Ok (VList l)
    | CKeyed =>
        match value with
        | VStr s => do d <- split_params literal_eval uni uninumeric s; Ok (VDict d)
        | _ => Err AttributeError
        end
    | _ => de_value value
    end.

  (** [parts[0]], [parts[1]], [len(parts)] and [parts[1:]] for what de_string returned. [VOther] is
      taken for a number. *)
  Definition part_at (parts : pval) (i : nat) : result pval :=
    match parts with
    | VList l => match nth_error l i with Some x => Ok x | None => Err IndexError end
    | VStr s => match nth_error s i with Some c => Ok (VStr [c]) | None => Err IndexError end
    | VDict _ => Err KeyError
    | _ => Err TypeError
    end.
  Definition many_parts (parts : pval) : bool :=
    match parts with
    | VList l => (2 <? length l)%nat
    | VStr s => (2 <? length s)%nat
    | _ => false
    end.
  Definition parts_from_1 (parts : pval) : pval :=
    match parts with
    | VList l => VList (skipn 1 l)
    | VStr s => VStr (skipn 1 s)
    | v => v
    end.
  Definition is_name (v : pval) (n : pystr) : bool :=
    match v with VStr s => streq s n | _ => false end.

  (** [l.remove(x)]: the first occurrence *)
  Fixpoint remove_first (x : pystr) (l : list pystr) : list pystr :=
    match l with
    | [] => []
    | y :: l' => if streq y x then l' else y :: remove_first x l'
    end.

  (** The variables of the loop in datasets.py:618-664. *)
  Record dstate := DState {
    d_string : pystr; d_keyworded : list pystr; d_npnk : option field; d_params : list (pystr * pval) }.

  (** datasets.py:618-664, one turn; [true] when it ends with [continue] *)
  Definition dir_step (v : field) (st : dstate) : result (bool * dstate) :=
    if f_transient v then Ok (true, st)
    else if f_positional v then
      let '(dstring, name) := path_split (d_string st) in
      if f_keyword v then
        do parts <- de name;
        do p0 <- part_at parts 0;
        if negb (is_name p0 (f_name v)) then
          if f_required v then Err ValueError
          else Ok (true, DState (path_join2 dstring name) (d_keyworded st) (d_npnk st) (d_params st))
        else
          do val <- (if many_parts parts
                     then do s <- stringify v (parts_from_1 parts) false; Ok (VStr s)
                     else part_at parts 1);
          Ok (false, DState dstring (d_keyworded st) (d_npnk st) (gd_set streq (d_params st) (f_name v) val))
      else
        Ok (false, DState dstring (d_keyworded st) (d_npnk st) (gd_set streq (d_params st) (f_name v) (VStr name)))
    else if f_keyword v then
      if existsb (streq (f_name v)) (d_keyworded st)
      then Ok (false, DState (d_string st) (remove_first (f_name v) (d_keyworded st)) (d_npnk st) (d_params st))
      else if f_required v && negb (gd_mem streq (d_params st) (f_name v)) then Err ValueError
      else Ok (true, st)
    else Ok (false, DState (d_string st) (d_keyworded st) (Some v) (d_params st)).

  (** datasets.py:663-664: [if deep_eval ...] *)
  Definition dir_eval (deep : bool) (v : field) (st : dstate) : result dstate :=
    if deep && (match f_class v with CStr => false | _ => true end) then
      do x <- gd_lookup streq (d_params st) (f_name v);
      do y <- field_de_string (f_class v) x;
      Ok (DState (d_string st) (d_keyworded st) (d_npnk st) (gd_set streq (d_params st) (f_name v) y))
    else Ok st.

  (** the loop; the fields are in reversed order already *)
  Fixpoint dir_loop (deep : bool) (fs : list field) (st : dstate) : result dstate :=
    match fs with
    | [] => Ok st
    | v :: fs' =>
        do (skip, st1) <- dir_step v st;
        do st2 <- (if skip then Ok st1 else dir_eval deep v st1);
        dir_loop deep fs' st2
    end.

  Definition flat_value (v : option pystr) : pval := match v with Some s => VStr s | None => VNone end.

  (** equality of values, for the sentinel check *)
  Variable pval_eq : pval -> pval -> bool.

  (** datasets.py:591-684. The loop variable [v] is used after the loop (line 667): it is then the
      first field, and without fields it is unbound. *)
  Definition params_from_dir_string (fs : list field) (deep : bool) (dstring : pystr)
    : result (list (pystr * pval)) :=
    let dstring := if contains (lit "txt") (path_ext dstring) then fst (path_split dstring) else dstring in
    let dstring := normpath dstring in
    do npnk_name <- has_npnk fs;
    do (dstring, params, keyworded) <-
      (if has_keyword fs then
         let '(ds, kstring) := path_split dstring in
         let kstring := match npnk_name with Some n => join [dash] [n; kstring] | None => kstring end in
         do p <- split_params_flat kstring;
         let p := map (fun kv => (fst kv, flat_value (snd kv))) p in
         Ok (ds, p, map fst p)
       else match npnk_name with
            | Some n => let '(ds, pstring) := path_split dstring in Ok (ds, [(n, VStr pstring)], [])
            | None => Ok (dstring, [], [])
            end);
    do st <- dir_loop deep (rev fs) (DState dstring keyworded None params);
    match fs with
    | [] => Err NameError
    | v :: _ =>
        do _ <- (match f_constant v with
                 | None => Ok tt
                 | Some c => do x <- gd_lookup streq (d_params st) (f_name v);
                             if pval_eq x c then Ok tt else Err ValueError
                 end);
        do params <-
          (match d_npnk st with
           | Some f =>
               if gd_mem streq (d_params st) (f_name f) then Ok (d_params st)
               else match d_keyworded st with
                    | [k] =>
                        do val <- gd_lookup streq (d_params st) k;
                        do val <- (if deep then field_de_string (f_class f) val else Ok val);
                        Ok (gd_set streq (gd_pop streq (d_params st) k) (f_name f) val)
                    | _ => Err ValueError
                    end
           | None => Ok (d_params st)
           end);
        Ok (gd_set streq params (lit "base_dir") (VStr (d_string st)))
    end.

  (** What [int], [float], [str] and [bool] make of values that the model keeps as text. *)
  Variable other_int : pystr -> option Z.
  Variable is_float : pystr -> bool.
  Variable to_float : pval -> option pval.
  Variable to_str : pval -> pystr.
  Variable other_true : pystr -> bool.

  (** [bool(v)] *)
  Definition truth (v : pval) : bool :=
    match v with
    | VNone => false
    | VBool b => b
    | VInt n => negb (n =? 0)
    | VStr s => match s with [] => false | _ => true end
    | VOther s => other_true s
    | VList l => match l with [] => false | _ => true end
    | VDict d => match d with [] => false | _ => true end
    end.

  (** datasets.py:162-171: [_expected_type(val)] unless it has the type already *)
  Definition convert_type (c : fclass) (val : pval) : result pval :=
    match c with
    | CInt =>
        match val with
        | VInt _ | VBool _ => Ok val
        | VStr s => match int_of_str uni s with Some n => Ok (VInt n) | None => Err TypeError end
        | VOther s => match other_int s with Some n => Ok (VInt n) | None => Err TypeError end
        | _ => Err TypeError
        end
    | CFloat =>
        match val with
        | VOther s => if is_float s then Ok val
                      else match to_float val with Some v => Ok v | None => Err TypeError end
        | _ => match to_float val with Some v => Ok v | None => Err TypeError end
        end
    | CStr => match val with VStr _ => Ok val | _ => Ok (VStr (to_str val)) end
    | CBool => match val with VBool _ => Ok val | _ => Ok (VBool (truth val)) end
    | _ => Ok val
    end.

  (** datasets.py:162-180 *)
  Definition convert_val (f : field) (val : pval) : result pval :=
    do val <- convert_type (f_class f) val;
    match f_choices f with
    | Some ok => if ok val then Ok val else Err TypeError
    | None => Ok val
    end.

  (** datasets.py:182-232 for the classes that do not override it *)
  Definition plain_set (f : field) (inst : attrs) (kw : list (pystr * pval)) : result attrs :=
    match (match gd_get streq kw (f_name f) with Some v => Some v | None => f_default f end) with
    | None => if f_required f then Err TypeError else Ok inst
    | Some val =>
        do val <- (match nargs_of f with
                   | None => convert_val f val
                   | Some n =>
                       do l <- mapM (convert_val f) (listify val);
                       match n with
                       | NNum k => if Z.of_nat (length l) <? k then Err TypeError
                                   else Ok (VList (slice_to l k))
                       | _ => Ok (VList l)
                       end
                   end);
        Ok (gd_set streq inst (f_name f) (Some val))
    end.

  (** datasets.py:289-303. Without value and default, [listify(empty)] is a list with the class in it.
      A dictionary stays a dictionary. *)
  Definition list_set_self (f : field) (inst : attrs) (kw : list (pystr * pval)) : result attrs :=
    match (match gd_get streq kw (f_name f) with Some v => Some v | None => f_default f end) with
    | None => if f_required f then Err ValueError else Ok (gd_set streq inst (f_name f) (Some (VList [the_empty])))
    | Some (VStr s) =>
        do v <- field_de_string CList (VStr s); Ok (gd_set streq inst (f_name f) (Some v))
    | Some (VDict d) => Ok (gd_set streq inst (f_name f) (Some (VDict d)))
    | Some v => Ok (gd_set streq inst (f_name f) (Some (VList (listify v))))
    end.

  (** datasets.py:329-343. ['_'.join(val)] works for a list of strings; TypeError is suppressed. *)
  Definition keyed_set_self (f : field) (inst : attrs) (kw : list (pystr * pval)) : result attrs :=
    match (match gd_get streq kw (f_name f) with Some v => Some v | None => f_default f end) with
    | None => if f_required f then Err ValueError else Ok (gd_set streq inst (f_name f) None)
    | Some val =>
        do val <- (match val with
                   | VStr s => do d <- split_params literal_eval uni uninumeric s; Ok (VDict d)
                   | VList l =>
                       match mapM (fun v => match v with VStr s => Ok s | _ => Err TypeError end) l with
                       | Ok ss => do d <- split_params literal_eval uni uninumeric (join [underscore] ss); Ok (VDict d)
                       | Err _ => Ok val
                       end
                   | _ => Ok val
                   end);
        Ok (gd_set streq inst (f_name f) (Some val))
    end.

  Definition set_self (f : field) (inst : attrs) (kw : list (pystr * pval)) : result attrs :=
    match f_class f with
    | CList => list_set_self f inst kw
    | CKeyed => keyed_set_self f inst kw
    | _ => plain_set f inst kw
    end.

  (** datasets.py:398-412, 414-431 with [instance=None], [complain=False]. All parameters have a default
      (the class [empty] of datasets.py, not that of inspect), so [bind] accepts any keywords. *)
  Fixpoint set_fields (fs : list field) (kw : list (pystr * pval)) (inst : attrs) : result attrs :=
    match fs with
    | [] => Ok inst
    | f :: fs' => do inst1 <- set_self f inst kw; set_fields fs' kw inst1
    end.
  Definition set_inherited (inherited : list pystr) (kw : list (pystr * pval)) (inst : attrs) : attrs :=
    fold_left (fun a n => match gd_get streq kw n with Some v => gd_set streq a n (Some v) | None => a end)
      inherited inst.
  Definition construct (fs : list field) (inherited : list pystr) (kw : list (pystr * pval)) : result attrs :=
    do inst <- set_fields fs kw []; Ok (set_inherited inherited kw inst).

  (** datasets.py:586-588 *)
  Definition from_dir_string (fs : list field) (inherited : list pystr) (dstring : pystr) : result attrs :=
    do kw <- params_from_dir_string fs true dstring; construct fs inherited kw.
End deep.
