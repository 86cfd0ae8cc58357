(** datasets.py:844-921: records of Structures and their selection by values. *)
From Verif Require Export Model.Nested.
Open Scope Z_scope.

(** datasets.py:846-852: the fields of a class and of the classes inside that are not transient. The class [empty] has no
    _iter_base_params. *)
Fixpoint member_params (m : member) : result (list field) :=
  match m with
  | MField f => Ok (if f_transient f then [] else [f])
  | MStruct _ _ _ _ _ None => Err AttributeError
  | MStruct _ _ _ _ _ (Some (members, _)) =>
      (fix go (l : list member) : result (list field) :=
         match l with [] => Ok [] | x :: l' => do a <- member_params x; do b <- go l'; Ok (a ++ b) end) members
  end.
Fixpoint base_params (members : list member) : result (list field) :=
  match members with [] => Ok [] | x :: l => do a <- member_params x; do b <- base_params l; Ok (a ++ b) end.

(** [getattr(self, n)]: the class [empty] is a value like any other *)
Definition attribute (inst : attrs) (n : pystr) : result pval :=
  match gd_get streq inst n with
  | None => Err AttributeError
  | Some (Some v) => Ok v
  | Some None => Ok the_empty
  end.

(** datasets.py:908-916. The Series has an entry for each key, here in the order of the fields. *)
Definition get_flat_record (base : list field) (coll_strings : bool) (inst : attrs) : result (list (pystr * pval)) :=
  (fix go (l : list field) (d : list (pystr * pval)) : result (list (pystr * pval)) :=
     match l with
     | [] => Ok d
     | v :: l' =>
         do val <- attribute inst (f_name v);
         do val <- (if coll_strings && (match f_class v with CList | CKeyed => true | _ => false end)
                    then do s <- stringify v val true; Ok (VStr s) else Ok val);
         go l' (gd_set streq d (f_name v) val)
     end) base [].

(** datasets.py:918-920 *)
Definition items (fs : list field) (inst : attrs) : result (list (pystr * pval)) :=
  mapM (fun v => do val <- attribute inst (f_name v); Ok (f_name v, val)) fs.

(** datasets.py:874-883, 57-88 for [Parsable(key)] *)
Definition get_parameter (base : list field) (key : pystr) : field :=
  match find (fun k => streq (f_name k) key) base with
  | Some k => k
  | None => Field key CAny false true false false None None None None
  end.

Section matches.
  (** [==] of values *)
  Variable peq : pval -> pval -> bool.
  (** [val in listify(options)] *)
  Definition among (val options : pval) : bool := existsb (peq val) (listify options).

  (** datasets.py:885-906. [hasattr] finds the attributes of the instance; those of the class are left out. *)
  Fixpoint asserted (base : list field) (inst : attrs) (assert_vals : list (pystr * pval)) : result bool :=
    match assert_vals with
    | [] => Ok true
    | (k, x) :: rest =>
        match attribute inst k with
        | Err _ => Ok false
        | Ok val =>
            do strval <- stringify (get_parameter base k) val false;
            if negb (among val x) && negb (among (VStr strval) x) then Ok false else asserted base inst rest
        end
    end.
  Fixpoint dropped (base : list field) (inst : attrs) (drop_vals : list (pystr * pval)) : result bool :=
    match drop_vals with
    | [] => Ok false
    | (k, x) :: rest =>
        match attribute inst k with
        | Err _ => dropped base inst rest
        | Ok val =>
            do strval <- stringify (get_parameter base k) val false;
            if among (VStr strval) x then Ok true else dropped base inst rest
        end
    end.
  Definition matches (base : list field) (inst : attrs) (drop_vals assert_vals : list (pystr * pval)) : result bool :=
    do a <- asserted base inst assert_vals;
    if a then do d <- dropped base inst drop_vals; Ok (negb d) else Ok false.

  (** datasets.py:854-872 for a parameter that is no Struct *)
  Definition matches_param (param : field) (inst : attrs) (drop_vals assert_vals : list (pystr * pval)) : result bool :=
    do val <- attribute inst (f_name param);
    do val <- stringify param val true;
    match gd_get streq drop_vals (f_name param) with
    | Some x => if among (VStr val) x then Ok false
                else match gd_get streq assert_vals (f_name param) with
                     | Some y => Ok (among (VStr val) y)
                     | None => Ok true
                     end
    | None => match gd_get streq assert_vals (f_name param) with
              | Some y => Ok (among (VStr val) y)
              | None => Ok true
              end
    end.
End matches.
