(** datasets.py:182-232, 350-431, 536-765, 1041-1085: Structures that hold other Structures (the Parsable Struct).
    Simplified: a Struct has no default, constant, choices or nargs; values given by name are what keyword arguments
    of the other models are, never a finished Structure. *)
From Verif Require Export Model.Args.
Open Scope Z_scope.

(** What [_fields] can hold: a Parsable of Model/Structures.v, or a Struct with its name and its flags [required],
    [keyword], [positional] and [transient] (datasets.py:62-88: the defaults of [__init__], keyword=True and
    positional=False, replace the class attributes of Struct), and its [constructor]: a Structure with its [_fields] and
    [_inherited], or the class [empty] if none is given. *)
Inductive member :=
| MField (f : field)
| MStruct (name : pystr) (req keyword positional transient : bool) (constructor : option (list member * list pystr)).

Definition member_name (i : member) : pystr :=
  match i with MField f => f_name f | MStruct n _ _ _ _ _ => n end.
(** the fields of the class itself that are no Structs *)
Definition own_fields (members : list member) : list field :=
  flat_map (fun i => match i with MField f => [f] | MStruct _ _ _ _ _ _ => [] end) members.

(** An instance: values (the class [empty] is [None]) and instances of other classes. *)
Inductive sval := SVal (v : option pval) | SInst (a : list (pystr * sval)).
Definition sattrs := list (pystr * sval).
(** the attributes that are values *)
Definition own_attrs (a : sattrs) : attrs :=
  flat_map (fun p => match snd p with SVal v => [(fst p, v)] | SInst _ => [] end) a.

(** datasets.py:725-765 and 1065-1075: the part of the directory string for one field; none for a field that has no place of
    its own or is not set. get_nonpos_string (697-723) leaves out the Structs. [SInst] without constructor does
    not occur. *)
Definition string_of_parts (members : list member) (a : sattrs) (parts : list pystr) : result pystr :=
  do key_string <- get_nonpos_string (own_attrs a) (own_fields members);
  let args := match key_string with [] => parts | _ => parts ++ [key_string] end in
  Ok (match args with [] => [] | x :: rest => path_join x rest end).
Fixpoint member_string (i : member) (a : sattrs) {struct i} : result (option pystr) :=
  match i with
  | MField v =>
      if f_transient v || negb (f_positional v) then Ok None
      else match get_attr (own_attrs a) (f_name v) with
           | None => if f_required v then Err TypeError else Ok None
           | Some val => do s <- stringify v val false; Ok (Some s)
           end
  | MStruct n req keyword _ transient con =>
      if transient then Ok None
      else
        match gd_get streq a n with
        | None | Some (SVal None) => if req then Err TypeError else Ok None
        | Some (SVal (Some (VStr s))) => Ok (Some (if keyword then path_join2 n s else s))
        | Some (SVal (Some _)) => Err ValueError
        | Some (SInst b) =>
            match con with
            | None => Err ValueError
            | Some (members, _) =>
                do parts <- (fix go (l : list member) : result (list pystr) :=
                               match l with
                               | [] => Ok []
                               | x :: l' => do o <- member_string x b; do rest <- go l';
                                            Ok (match o with Some s => s :: rest | None => rest end)
                               end) members;
                do s <- string_of_parts members b parts;
                Ok (Some (if keyword then path_join2 n s else s))
            end
        end
  end.
Fixpoint member_strings (members : list member) (a : sattrs) : result (list pystr) :=
  match members with
  | [] => Ok []
  | x :: l => do o <- member_string x a; do rest <- member_strings l a;
              Ok (match o with Some s => s :: rest | None => rest end)
  end.
Definition nested_string (members : list member) (a : sattrs) : result pystr :=
  do parts <- member_strings members a; string_of_parts members a parts.

(** datasets.py:350-358, 541-542: unlike [_has_keyword] (536-538) this does not leave out the Structs. *)
Definition nested_npnk (members : list member) : result (option pystr) :=
  match map member_name (filter (fun i => match i with
                                        | MField f => negb (f_positional f) && negb (f_keyword f) && negb (f_transient f)
                                        | MStruct _ _ k p t _ => negb p && negb k && negb t
                                        end) members) with
  | [] => Ok None
  | [n] => Ok (Some n)
  | _ => Err TypeError
  end.

(** the arguments of a Struct are those of its constructor (datasets.py:1057-1062); the class [empty] has no
    add_parser_args. *)
Fixpoint member_fields (i : member) : result (list field) :=
  match i with
  | MField f => Ok [f]
  | MStruct _ _ _ _ _ None => Err AttributeError
  | MStruct _ _ _ _ _ (Some (members, _)) =>
      (fix go (l : list member) : result (list field) :=
         match l with [] => Ok [] | x :: l' => do a <- member_fields x; do b <- go l'; Ok (a ++ b) end) members
  end.
Fixpoint all_fields (members : list member) : result (list field) :=
  match members with [] => Ok [] | x :: l => do a <- member_fields x; do b <- all_fields l; Ok (a ++ b) end.

(** [params.update(sparams)] *)
Definition dict_update (d e : list (pystr * pval)) : list (pystr * pval) :=
  fold_left (fun d p => gd_set streq d (fst p) (snd p)) e d.

Section nested.
  (** see Model/Structures.v *)
  Variable literal_eval : pystr -> option pval.
  Variable uni : pystr -> option Z.
  Variable uninumeric : pystr -> bool.
  Variable pval_eq : pval -> pval -> bool.
  Variable other_int : pystr -> option Z.
  Variable is_float : pystr -> bool.
  Variable to_float : pval -> option pval.
  Variable to_str : pval -> pystr.
  Variable other_true : pystr -> bool.
  Variable unineg : pystr -> bool.
  Notation dir_step := (dir_step literal_eval uni uninumeric).
  Notation dir_eval := (dir_eval literal_eval uni uninumeric).
  Notation field_de_string := (field_de_string literal_eval uni uninumeric).
  Notation set_self := (set_self literal_eval uni uninumeric other_int is_float to_float to_str other_true).

  (** datasets.py:591-615 and 666-684, around the loop *)
  Definition nested_params (members : list member) (loop : dstate -> result dstate) (deep : bool) (dstring : pystr)
    : result (list (pystr * pval)) :=
    let dstring := if contains (lit "txt") (path_ext dstring) then fst (path_split dstring) else dstring in
    let dstring := normpath dstring in
    do npnk_name <- nested_npnk members;
    do (dstring, params, keyworded) <-
      (if has_keyword (own_fields members) then
         let '(ds, kstring) := path_split dstring in
         let kstring := match npnk_name with Some n => join [dash] [n; kstring] | None => kstring end in
         do p <- split_params_flat kstring;
         let p := map (fun kv => (fst kv, flat_value (snd kv))) p in
         Ok (ds, p, map fst p)
       else match npnk_name with
            | Some n => let '(ds, pstring) := path_split dstring in Ok (ds, [(n, VStr pstring)], [])
            | None => Ok (dstring, [], [])
            end);
    do st <- loop (DState dstring keyworded None params);
    match members with
    | [] => Err NameError
    | v :: _ =>
        do _ <- (match v with
                 | MField v =>
                     match f_constant v with
                     | None => Ok tt
                     | Some c => do x <- gd_lookup streq (d_params st) (f_name v);
                                 if pval_eq x c then Ok tt else Err ValueError
                     end
                 | MStruct _ _ _ _ _ _ => Ok tt
                 end);
        do params <-
          (match d_npnk st with
           | Some f =>
               if gd_mem streq (d_params st) (f_name f) then Ok (d_params st)
               else match d_keyworded st with
                    | [k] =>
                        do val <- gd_lookup streq (d_params st) k;
                        do val <- (if deep then field_de_string (f_class f) val else Ok val);
                        Ok (gd_set streq (gd_pop streq (d_params st) k) (f_name f) val)
                    | _ => Err ValueError
                    end
           | None => Ok (d_params st)
           end);
        Ok (gd_set streq params (lit "base_dir") (VStr (d_string st)))
    end.

  (** datasets.py:618-664, one turn. A ValueError while an optional Struct is read is suppressed. *)
  Fixpoint member_read (deep : bool) (i : member) (st : dstate) {struct i} : result dstate :=
    match i with
    | MField v =>
        do (skip, st1) <- dir_step v st;
        if skip then Ok st1 else dir_eval deep v st1
    | MStruct _ req _ _ transient con =>
        if transient then Ok st
        else
          match con with
          | None => Err AttributeError
          | Some (members, _) =>
              match nested_params members
                      ((fix go (l : list member) (st : dstate) : result dstate :=
                          match l with [] => Ok st | x :: l' => do st1 <- go l' st; member_read deep x st1 end) members)
                      deep (d_string st) with
              | Ok sparams =>
                  do b <- gd_lookup streq sparams (lit "base_dir");
                  match b with
                  | VStr s => Ok (DState s (d_keyworded st) (d_npnk st)
                                    (dict_update (d_params st) (gd_pop streq sparams (lit "base_dir"))))
                  | _ => Err TypeError
                  end
              | Err ValueError => if req then Err ValueError else Ok st
              | Err e => Err e
              end
          end
    end.
  (** the loop runs from the last field to the first *)
  Fixpoint members_read (deep : bool) (members : list member) (st : dstate) : result dstate :=
    match members with [] => Ok st | x :: l => do st1 <- members_read deep l st; member_read deep x st1 end.
  Definition nested_from_dir (members : list member) (deep : bool) (dstring : pystr) : result (list (pystr * pval)) :=
    nested_params members (members_read deep members) deep dstring.

  (** what is left of the keywords after binding: the parameter [kwargs] of the signature, datasets.py:384-395 *)
  Definition other_keywords (members : list member) (kw : list (pystr * pval)) : list (pystr * pval) :=
    filter (fun p => negb (existsb (streq (fst p)) (map member_name members))) kw.
  Definition set_inherited_s (inherited : list pystr) (kw : list (pystr * pval)) (inst : sattrs) : sattrs :=
    fold_left (fun a n => match gd_get streq kw n with Some v => gd_set streq a n (SVal (Some v)) | None => a end)
      inherited inst.

  (** datasets.py:544-588: from_wildcard of a value, given how the class is made from keywords *)
  Definition from_wildcard (members : list member) (make : list (pystr * pval) -> result sattrs) (v : pval) : result sattrs :=
    let from_args (args : list pystr) :=
      do fs <- all_fields members; do acts <- get_parser fs;
      do ns <- parse_known_args unineg uni to_float acts args; make ns in
    match v with
    | VList l => do args <- mapM (fun x => match x with VStr s => Ok s | _ => Err TypeError end) l; from_args args
    | VStr s => if contains (lit "--") s then from_args (split 32 s)
                else do kw <- nested_from_dir members true s; make kw
    | VDict d => make d
    | _ => Err TypeError
    end.

  (** datasets.py:398-431 with [instance=None], [complain=False]; 182-232 for the Structs. A field sets the attribute
      of its own name and nothing else. *)
  Fixpoint member_set (kw others : list (pystr * pval)) (i : member) (inst : sattrs) {struct i} : result sattrs :=
    match i with
    | MField f =>
        do a <- set_self f [] kw;
        Ok (match a with [] => inst | (_, v) :: _ => gd_set streq inst (f_name f) (SVal v) end)
    | MStruct n req _ _ _ con =>
        let make (members : list member) (inherited : list pystr) (go : list (pystr * pval) -> list (pystr * pval) -> result sattrs)
                 (kw : list (pystr * pval)) :=
          do a <- go kw (other_keywords members kw); Ok (set_inherited_s inherited kw a) in
        match con with
        | None =>
            match gd_get streq kw n with
            | Some v => Ok (gd_set streq inst n (SVal (Some v)))
            | None => if req then Err TypeError else Ok inst
            end
        | Some (members, inherited) =>
            let go kw others :=
              (fix go (l : list member) (a : sattrs) : result sattrs :=
                 match l with [] => Ok a | x :: l' => do a1 <- member_set kw others x a; go l' a1 end) members [] in
            match gd_get streq kw n with
            | Some v => do s <- from_wildcard members (make members inherited go) v; Ok (gd_set streq inst n (SInst s))
            | None =>
                match others with
                | [] => if req then Err TypeError else Ok inst
                | _ => match make members inherited go others with
                       | Ok s => Ok (gd_set streq inst n (SInst s))
                       | Err TypeError => if req then Err TypeError else Ok inst
                       | Err e => Err e
                       end
                end
            end
        end
    end.
  Fixpoint members_set (kw others : list (pystr * pval)) (members : list member) (inst : sattrs) : result sattrs :=
    match members with
    | [] => Ok inst
    | x :: l => do inst1 <- member_set kw others x inst; members_set kw others l inst1
    end.
  Definition nested_construct (members : list member) (inherited : list pystr) (kw : list (pystr * pval)) : result sattrs :=
    do a <- members_set kw (other_keywords members kw) members []; Ok (set_inherited_s inherited kw a).

  (** datasets.py:586-588 *)
  Definition nested_from_dir_string (members : list member) (inherited : list pystr) (dstring : pystr) : result sattrs :=
    do kw <- nested_from_dir members true dstring; nested_construct members inherited kw.
End nested.
