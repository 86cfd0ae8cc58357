(** Which parameters come back from the strings of utilities.py, and as what. *)
From Verif Require Export Model.UtilNames Spec.FileNames.
Open Scope Z_scope.

Section back.
  Context {F : Type} (float_of : pystr -> option F) (fneg : F -> F).
  Variable uninumeric : pystr -> bool.

  (** a text that reads as itself and not as a number *)
  Definition name_like (s : pystr) : Prop :=
    Forall safe s /\ isnumeric uninumeric s = false /\ s <> lit "None" /\ float_of s = None.

  Inductive item_back : uitem -> item_ -> Prop :=
  | back_none : item_back UNone INone
  | back_int n : 0 <= n -> item_back (UInt n) (IInt n)
  | back_str s : name_like s -> ~ In dash s -> ~ In underscore s -> item_back (UStr s) (IStr s)
  | back_bool b : name_like (ustr (UBool b)) -> item_back (UBool b) (IStr (ustr (UBool b)))
  | back_num s b f : word s -> isnumeric uninumeric s = false -> s <> lit "None" ->
      float_of s = Some f -> item_back (UNum s b) (IFloat f).

  Inductive comes_back : uval -> param_ -> Prop :=
  | comes_one v i : item_back v i -> comes_back (UOne v) (POne i)
  | comes_negative n : n < 0 -> float_of [] = None -> comes_back (UOne (UInt n)) (POne (IInt n))
  | comes_negative_num s b f : word s -> isnumeric uninumeric s = false -> s <> lit "None" ->
      float_of s = Some f -> float_of [] = None ->
      comes_back (UOne (UNum (dash :: s) b)) (POne (IFloat (fneg f)))
  | comes_two s w v i : s <> [] -> item_back (UStr s) (IStr s) -> item_back w i -> v = UStr s ->
      comes_back (UList [v; w]) (PMany [IStr s; i])
  | comes_many l is_ : (3 <= length l)%nat -> Forall2 item_back l is_ ->
      comes_back (UList l) (PMany is_).
End back.

(** How a command line is read: every argument that begins with two dashes starts a new option. *)
Definition is_option (s : pystr) : bool := starts (lit "--") s.
Fixpoint group_args (args : list pystr) : list (pystr * list pystr) :=
  match args with
  | [] => []
  | a :: args' =>
      if is_option a then (a, (fix take (l : list pystr) : list pystr :=
                                 match l with
                                 | x :: l' => if is_option x then [] else x :: take l'
                                 | [] => []
                                 end) args') :: group_args args'
      else group_args args'
  end.

(** what a parameter should look like on the command line: nothing, a flag, or values *)
Definition expected (v : uval) : option (list pystr) :=
  match v with
  | UOne (UBool false) => None
  | UOne (UBool true) => Some []
  | UOne u => Some [ustr u]
  | UList l => Some (map ustr l)
  end.

(** a number that Python takes for False or True *)
Definition zero_or_one (v : uval) : Prop :=
  match v with
  | UOne (UInt n) => n = 0 \/ n = 1
  | UOne (UNum _ b) => b <> None
  | _ => False
  end.
