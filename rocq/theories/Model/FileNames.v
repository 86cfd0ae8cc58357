(** helpers.py:171-488: parameter values as file names and back. *)
From Verif Require Export Model.PyDict Model.Params Model.PyStr.
Open Scope Z_scope.

(** Parameter values. [VOther] is any other value (a float, a tuple ...), given by its [str];
    dictionaries have strings as keys. *)
Inductive pval :=
| VNone
| VBool (b : bool)
| VInt (n : Z)
| VStr (s : pystr)
| VOther (s : pystr)
| VList (l : list pval)
| VDict (d : list (pystr * pval)).

(** the characters that helpers.py:192 keeps: letters, digits, underscore, dot, dash *)
Definition allowed (c : Z) : bool :=
  ((97 <=? c) && (c <=? 122)) || ((65 <=? c) && (c <=? 90)) || is_digit c ||
  (c =? underscore) || (c =? 46) || (c =? dash).

(** [re.sub(r'[^a-zA-Z0-9_.\-]', '', s)] *)
Definition keep_allowed (s : pystr) : pystr := filter allowed s.

(** [sorted] of the items of a dictionary by key *)
Definition sort_items {A} (d : list (pystr * A)) : list (pystr * A) :=
  sort (fun p q => strle (fst p) (fst q)) d.

(** helpers.py:171-192, with format_param (helpers.py:328-411) for [code='-'] and
    [force_both=True]: TypeError without a name, else name, dash, clean value. The model cleans the
    values before it sorts the keys; all errors are the same. *)
Fixpoint clean_string (value : pval) : result pystr :=
  match value with
  | VNone => Ok (keep_allowed (lit "None"))
  | VBool true => Ok (keep_allowed (lit "True"))
  | VBool false => Ok (keep_allowed (lit "False"))
  | VInt n => Ok (keep_allowed (str_of_int n))
  | VStr s => Ok (keep_allowed s)
  | VOther s => Ok (keep_allowed s)
  | VList l =>
      do parts <- (fix go (l : list pval) : result (list pystr) :=
                     match l with
                     | [] => Ok []
                     | v :: l' => do s <- clean_string v; do rest <- go l'; Ok (s :: rest)
                     end) l;
      Ok (join [dash] parts)
  | VDict d =>
      do parts <- (fix go (d : list (pystr * pval)) : result (list (pystr * pystr)) :=
                     match d with
                     | [] => Ok []
                     | (k, v) :: d' =>
                         match k with
                         | [] => Err TypeError
                         | _ => do s <- clean_string v; do rest <- go d';
                                Ok ((k, k ++ [dash] ++ s) :: rest)
                         end
                     end) d;
      Ok (join [underscore] (map snd (sort_items parts)))
  end.

(** helpers.py:456-488. The loop changes the list that it enumerates: a part without a dash is
    glued in front of the next one ([glued]), and at the end this is IndexError. The parameters [value1]
    and [values] turn the text after the first dash into a value: [value1] when there is one piece,
    [values] when there are more. *)
Section split_params.
  Context {V : Type} (value1 : pystr -> result V) (values : list pystr -> result V).

  Fixpoint split_loop (glued : option pystr) (parts : list pystr) (params : list (pystr * V))
    : result (list (pystr * V)) :=
    match parts with
    | [] => match glued with None => Ok params | Some _ => Err IndexError end
    | p :: parts' =>
        let p := match glued with Some q => q ++ [underscore] ++ p | None => p end in
        match split dash p with
        | k :: v :: vs =>
            do val <- (match vs with [] => value1 v | _ => values (v :: vs) end);
            split_loop None parts' (gd_set streq params k val)
        | _ => split_loop (Some p) parts' params
        end
    end.
End split_params.

(** helpers.py:456-488 with [deep_eval=False]; [None] is the value of a lone name. *)
Definition split_params_flat (s : pystr) : result (list (pystr * option pystr)) :=
  let parts := split underscore s in
  if (Z.of_nat (length parts) <? 2) && negb (has_char dash (hd [] parts))
  then Ok [(hd [] parts, None)]
  else split_loop (fun v => Ok (Some v)) (fun vs => Ok (Some (join [dash] vs))) None parts [].

Section deep.
  (** [ast.literal_eval] of a string ([None] when it raises ValueError or SyntaxError), and the two
      functions on strings with characters outside ASCII. *)
  Variable literal_eval : pystr -> option pval.
  Variable uni : pystr -> option Z.
  Variable uninumeric : pystr -> bool.

  (** [s.isnumeric()] *)
  Definition isnumeric (s : pystr) : bool :=
    if forallb (fun c => (0 <=? c) && (c <? 128)) s
    then match s with [] => false | _ => forallb is_digit s end
    else uninumeric s.

  (** helpers.py:456-488 with [deep_eval=True]; [de] is [de_string]. *)
  Definition split_params_with (de : pystr -> result pval) (s : pystr)
    : result (list (pystr * pval)) :=
    let parts := split underscore s in
    if (Z.of_nat (length parts) <? 2) && negb (has_char dash (hd [] parts))
    then Ok [(hd [] parts, VNone)]
    else split_loop de
           (fun vs => match vs with
                      | [] :: _ => de (join [dash] vs)
                      | _ => do l <- mapM de vs; Ok (VList l)
                      end) None parts [].

  (** helpers.py:194-281 for a string. [de_string(value.split('-'))] maps de_string over the list,
      since literal_eval of a list raises ValueError. The nesting is at most three deep: the pieces
      that split_params evaluates have no underscore, the pieces of a list no dash either. *)
  Fixpoint de_string_fuel (fuel : nat) (value : pystr) : result pval :=
    match fuel with
    | O => Err OutOfFuel
    | S fuel' =>
        match literal_eval value with
        | Some v => Ok v
        | None =>
            if isnumeric value then
              match int_of_str uni value with Some n => Ok (VInt n) | None => Err ValueError end
            else if has_char underscore value then
              do d <- split_params_with (de_string_fuel fuel') value; Ok (VDict d)
            else if has_char dash value && (1 <? Z.of_nat (length value)) then
              do l <- mapM (de_string_fuel fuel') (split dash value); Ok (VList l)
            else Ok (VStr value)
        end
    end.
  Definition de_string (value : pystr) : result pval := de_string_fuel 3 value.

  Definition split_params (s : pystr) : result (list (pystr * pval)) :=
    split_params_with de_string s.
End deep.
