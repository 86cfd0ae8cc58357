(** utilities.py:1370-1397, 1493-1583: groups of parameter sets. *)
From Verif Require Export Model.UtilNames.
Open Scope Z_scope.

Definition params := list (pystr * uval).

(** [if key in names: names[key].append(p) else: names[key]=[p]] *)
Definition put_group (groups : list (pystr * list params)) (key : pystr) (p : params) : list (pystr * list params) :=
  match gd_get streq groups key with
  | Some l => gd_set streq groups key (l ++ [p])
  | None => gd_set streq groups key [p]
  end.

(** utilities.py:1529-1545; [keys] is the list made of them *)
Definition group_name (keys : list pystr) (p : params) : pystr :=
  match keys with
  | [] => []
  | _ => join_params (gd_of streq (map (fun k => (k, match gd_get streq p k with Some v => v | None => UOne UNone end)) keys))
  end.
Definition group_by_keys (param_list : list params) (keys : list pystr) : list (pystr * list params) :=
  fold_left (fun names p => put_group names (group_name keys p) p) param_list [].
(** [list(keys)] of a string *)
Definition letters (s : pystr) : list pystr := map (fun c => [c]) s.

Section key.
  (** [str] of a list *)
  Variable list_text : list uitem -> pystr.
  (** utilities.py:1547-1583. The entry for 'None' is there from the beginning. *)
  Definition value_text (v : uval) : pystr := match v with UOne u => ustr u | UList l => list_text l end.
  Definition group_by_key (param_list : list params) (key : pystr) : list (pystr * list params) :=
    fold_left (fun group p => put_group group (match gd_get streq p key with Some v => value_text v | None => lit "None" end) p)
      param_list [(lit "None", [])].
End key.

Section matches.
  (** [==] of values. The theorems take it to tell all values apart, so 1 and True too. *)
  Variable veq : uval -> uval -> bool.
  (** utilities.py:1370-1397 after the defaults: [None] is an empty dictionary or list *)
  Fixpoint all_required (candidate settings : params) (required : list pystr) : bool :=
    match required with
    | [] => true
    | p :: rest =>
        match gd_get streq candidate p with
        | None => false
        | Some v => match gd_get streq settings p with
                    | Some w => if veq w v then all_required candidate settings rest else false
                    | None => all_required candidate settings rest
                    end
        end
    end.
  Fixpoint none_restricted (candidate settings : params) (restricted : list pystr) : result bool :=
    match restricted with
    | [] => Ok true
    | p :: rest =>
        match gd_get streq settings p, gd_get streq candidate p with
        | Some w, Some v => if veq w v then Ok false else none_restricted candidate settings rest
        | _, _ => Err KeyError
        end
    end.
  Definition check_param_matches (candidate settings : params) (required restricted : list pystr) : result bool :=
    if all_required candidate settings required then none_restricted candidate settings restricted else Ok false.
End matches.
