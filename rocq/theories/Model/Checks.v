(** utilities.py:809-985: setting attributes from parameters, and checking parameters. *)
From Verif Require Export Model.UtilNames Model.PyDict.
Open Scope Z_scope.

Definition attrs := list (pystr * pval).
Definition is_none (v : pval) : bool := match v with VNone => true | _ => false end.

(** utilities.py:894-901. [valid] is valid_params, [[]] for None. The object is the values of its
    attributes, without properties or slots. *)
Fixpoint fill_params (obj : attrs) (valid : list pystr) (params : attrs) : result attrs :=
  match valid with
  | [] => Ok params
  | k :: rest =>
      if gd_mem streq params k then fill_params obj rest params
      else match gd_get streq obj k with
           | None => Err ParameterException
           | Some v => fill_params obj rest (gd_set streq params k v)
           end
  end.

(** utilities.py:904-917. The attributes set before an exception stay. *)
Fixpoint set_params (include_all validate : bool) (valid : list pystr) (params obj : attrs) : attrs * result unit :=
  match params with
  | [] => (obj, Ok tt)
  | (k, v) :: rest =>
      let has_valid := match valid with [] => false | _ => true end in
      let k_valid := existsb (streq k) valid in
      if negb include_all && (negb has_valid || (has_valid && negb k_valid)) then set_params include_all validate valid rest obj
      else
        let check_value := validate && (negb has_valid || k_valid) in
        if check_value && is_none v then (obj, Err ParameterException)
        else set_params include_all validate valid rest (gd_set streq obj k v)
  end.

(** utilities.py:809-918 *)
Definition set_attributes (include_all validate : bool) (valid : list pystr) (params obj : attrs) : attrs * result unit :=
  match fill_params obj valid params with
  | Err e => (obj, Err e)
  | Ok params => set_params include_all validate valid params obj
  end.

Section validate.
  (** [==]. The theorems take it to tell all values apart, so 1 and True too. *)
  Variable veq : pval -> pval -> bool.

  (** [p_val in req_vals]; [None] is TypeError *)
  Definition value_in (p_val req_vals : pval) : option bool :=
    match req_vals with
    | VList l => Some (existsb (veq p_val) l)
    | VStr s => match p_val with VStr t => Some (contains_str t s) | _ => None end
    | VDict d => match p_val with
                 | VStr t => Some (gd_mem streq d t)
                 | VList _ | VDict _ => None
                 | _ => Some false
                 end
    | _ => None
    end.

  (** a list of names, or a dictionary *)
  Inductive given := GList (l : list pystr) | GDict (d : attrs).
  Definition names_of (g : given) : list pystr := match g with GList l => l | GDict d => map fst d end.
  Definition given_in (g : given) (k : pystr) : bool :=
    match g with GList l => existsb (streq k) l | GDict d => gd_mem streq d k end.
  (** [d.get(k)] *)
  Definition value_of (d : attrs) (k : pystr) : pval := match gd_get streq d k with Some v => v | None => VNone end.

  (** utilities.py:962-982 *)
  Definition value_ok (params required : given) (k : pystr) : bool :=
    match params with
    | GList _ => false
    | GDict d =>
        let p_val := value_of d k in
        match required with
        | GList _ => negb (is_none p_val)
        | GDict r =>
            let req_vals := value_of r k in
            match value_in p_val req_vals with
            | Some b => b
            | None => veq p_val req_vals
            end
        end
    end.
  (** utilities.py:920-985 *)
  Definition validate_params (params required : given) (validate_values : bool) : bool :=
    forallb (fun k => given_in params k && (negb validate_values || value_ok params required k)) (names_of required).
End validate.
