(** utilities.py:262-341, 388-470, 560-740: parameter and feature names as strings and back. *)
From Verif Require Export Model.FileNames.
Open Scope Z_scope.

(** A single value: [UNum s b] is a number that is not an integer, with its [str] and, if it equals
    [False] or [True], which. *)
Inductive uitem :=
| UNone
| UBool (b : bool)
| UInt (n : Z)
| UStr (s : pystr)
| UNum (s : pystr) (b : option bool).

(** [str(v)] *)
Definition ustr (v : uitem) : pystr :=
  match v with
  | UNone => lit "None"
  | UBool true => lit "True"
  | UBool false => lit "False"
  | UInt n => str_of_int n
  | UStr s => s
  | UNum s _ => s
  end.

(** a parameter: one value or a list *)
Inductive uval := UOne (v : uitem) | UList (l : list uitem).

(** utilities.py:262-266 *)
Definition uclean (s : pystr) : pystr := filter (fun c => allowed c && negb (c =? dash)) s.

(** utilities.py:268-306. A value that is neither a string nor iterable raises TypeError, which is
    caught: its text is used as it is. *)
Definition join_items (values : uval) (sort_ : bool) : pystr :=
  match values with
  | UOne (UStr s) => uclean s
  | UOne v => ustr v
  | UList l =>
      let val := map (fun v => uclean (ustr v)) l in
      join [dash] (if sort_ then sort strle val else val)
  end.

(** utilities.py:418-435 *)
Definition join_params (params : list (pystr * uval)) : pystr :=
  join [underscore]
    (map (fun p => fst p ++ [dash] ++ join_items (snd p) false) (sort_items params)).

Section split.
  (** floats, [float(s)] ([None] is ValueError), negation *)
  Context {F : Type} (float_of : pystr -> option F) (fneg : F -> F).
  Variable uni : pystr -> option Z.
  Variable uninumeric : pystr -> bool.

  (** what split_items makes of a piece *)
  Inductive item_ :=
  | INone
  | IInt (n : Z)
  | IFloat (f : F)
  | IStr (s : pystr).

  (** utilities.py:328-341, the body of the loop; [int] of a numeric string that is no integer
      raises ValueError. *)
  Definition split_item (v : pystr) : result item_ :=
    if isnumeric uninumeric v then
      match int_of_str uni v with Some n => Ok (IInt n) | None => Err ValueError end
    else if streq v (lit "None") then Ok INone
    else match float_of v with
         | Some f => Ok (IFloat f)
         | None => Ok (IStr v)
         end.

  (** utilities.py:308-341 *)
  Definition split_items (item_string : pystr) : result (list item_) :=
    mapM split_item (split dash item_string).

  Inductive param_ := POne (v : item_) | PMany (l : list item_).

  (** [==] on keys; numbers are compared by [numeq] *)
  Variable numeq : item_ -> item_ -> bool.
  Definition item_eq (a b : item_) : bool :=
    match a, b with
    | INone, INone => true
    | IStr s, IStr t => streq s t
    | IInt _, IInt _ | IInt _, IFloat _ | IFloat _, IInt _ | IFloat _, IFloat _ => numeq a b
    | _, _ => false
    end.

  (** utilities.py:629-649. [glued] is the text glued in front of the next part; at the end the
      IndexError is caught and the text dropped. *)
  Fixpoint usplit_loop (glued : option pystr) (parts : list pystr) (params : list (item_ * param_))
    : result (list (item_ * param_)) :=
    match parts with
    | [] => Ok params
    | p :: parts' =>
        let p := match glued with Some q => q ++ [underscore] ++ p | None => p end in
        do param <- split_items p;
        match param with
        | [k; v] => usplit_loop None parts' (gd_set item_eq params k (POne v))
        | [k; v; w] =>
            match v with
            | IStr [] =>
                do neg <- (match w with
                           | IInt n => Ok (IInt (- n))
                           | IFloat f => Ok (IFloat (fneg f))
                           | _ => Err TypeError
                           end);
                usplit_loop None parts' (gd_set item_eq params k (POne neg))
            | IStr _ => usplit_loop None parts' (gd_set item_eq params k (PMany [v; w]))
            | _ => Err TypeError
            end
        | k :: v :: vs => usplit_loop None parts' (gd_set item_eq params k (PMany (v :: vs)))
        | _ => usplit_loop (Some p) parts' params
        end
    end.

  (** utilities.py:600-649 *)
  Definition usplit_params (param_string : pystr) : result (list (item_ * param_)) :=
    usplit_loop None (split underscore param_string) [].
End split.
Arguments INone {F}.
Arguments IInt {F} n.
Arguments IFloat {F} f.
Arguments IStr {F} s.
Arguments POne {F} v.
Arguments PMany {F} l.

(** utilities.py:437-469. Comparisons with [False] and [True] hold for the numbers 0 and 1 too. *)
Definition params_to_args (params : list (pystr * uval)) : list pystr :=
  let flag v := match v with
                | UOne (UBool b) => Some b
                | UOne (UInt n) => if n =? 0 then Some false else if n =? 1 then Some true else None
                | UOne (UNum _ b) => b
                | _ => None
                end in
  flat_map (fun p =>
    let '(k, v) := p in
    match flag v with
    | Some false => []
    | Some true => [lit "--" ++ k]
    | None => (lit "--" ++ k) ::
              match v with
              | UOne u => [ustr u]
              | UList l => map ustr l
              end
    end) (sort_items params).

(** [s.rjust(width, '0')] *)
Definition rjust (s : pystr) (width : nat) : pystr := repeat 48 (width - length s) ++ s.

(** utilities.py:540-554 for an integer *)
Definition join_number (string : pystr) (num : Z) (width : option nat) : pystr :=
  let num := str_of_int num in
  let num := match width with Some (S w) => rjust num (S w) | _ => num end in
  string ++ [dash] ++ num.

(** utilities.py:556-598 for a string *)
Definition split_number {F} (float_of : pystr -> option F) (uni : pystr -> option Z)
  (string : pystr) : pystr * option (Z + F) :=
  let parts := split dash string in
  let end_ := last parts [] in
  let num := if has_char 46 end_ then option_map inr (float_of end_)
             else option_map inl (int_of_str uni end_) in
  (join [dash] (match num with Some _ => removelast parts | None => parts end), num).

(** [m in h] *)
Fixpoint starts (m h : pystr) : bool :=
  match m, h with
  | [], _ => true
  | a :: m', b :: h' => (a =? b) && starts m' h'
  | _, [] => false
  end.
Fixpoint contains_str (m h : pystr) : bool :=
  starts m h || match h with [] => false | _ :: h' => contains_str m h' end.

(** utilities.py:651-664; single strings are given as lists of one *)
Definition add_modifiers (headers modifiers : list pystr) (keep_unmodified : bool) : list pystr :=
  flat_map (fun h =>
    (if keep_unmodified then [h] else []) ++
    map (fun m => h ++ [underscore] ++ m) (filter (fun m => negb (contains_str m h)) modifiers))
    headers.

(** utilities.py:666-703; [m in mod_set] for a collection of strings *)
Definition split_modifiers (mod_string : pystr) (mod_set : option (list pystr))
  : pystr * list pystr :=
  match split underscore mod_string with
  | [] => ([], [])
  | p0 :: ps =>
      match mod_set with
      | None => (p0, ps)
      | Some mods =>
          let is_mod p := existsb (streq p) mods in
          (join [underscore] (p0 :: filter (fun p => negb (is_mod p)) ps), filter is_mod ps)
      end
  end.

(** utilities.py:705-731 *)
Definition remove_modifiers (values : list pystr) (sort_ : bool) (mod_set : option (list pystr))
  : list pystr :=
  let features :=
    fold_left (fun features f =>
      let name := fst (split_modifiers f mod_set) in
      if existsb (streq name) features then features else features ++ [name]) values [] in
  if sort_ then sort strle features else features.

(** utilities.py:395-404; the sets are lists without repetition *)
Definition match_sets (required potential : list pystr) : Z :=
  if forallb (fun r => existsb (streq r) potential) required
  then Z.of_nat (length potential) - Z.of_nat (length required)
  else -1.
