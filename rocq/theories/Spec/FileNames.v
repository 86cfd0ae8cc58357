(** What parameter values have to look like to survive the way into a file name and back. *)
From Verif Require Export Model.FileNames.
Open Scope Z_scope.

(** letters, digits, underscore, dot and dash *)
Definition safe (c : Z) : Prop :=
  97 <= c <= 122 \/ 65 <= c <= 90 \/ 48 <= c <= 57 \/ c = 95 \/ c = 46 \/ c = 45.

(** every key of every dictionary inside the value satisfies [P] *)
Fixpoint all_keys (P : pystr -> Prop) (v : pval) : Prop :=
  match v with
  | VList l => (fix go (l : list pval) : Prop :=
                  match l with [] => True | x :: l' => all_keys P x /\ go l' end) l
  | VDict d => (fix go (d : list (pystr * pval)) : Prop :=
                  match d with [] => True | (k, x) :: d' => P k /\ all_keys P x /\ go d' end) d
  | _ => True
  end.

Section restorable.
  Variable literal_eval : pystr -> option pval.
  Variable uninumeric : pystr -> bool.

  (** Python's literals as far as they matter *)
  Definition evaluates : Prop :=
    (forall n, literal_eval (str_of_int n) = Some (VInt n)) /\
    literal_eval (lit "None") = Some VNone /\
    literal_eval (lit "True") = Some (VBool true) /\
    literal_eval (lit "False") = Some (VBool false).

  (** a string or another value in one piece, which reads as itself *)
  Definition word (s : pystr) : Prop :=
    Forall safe s /\ ~ In dash s /\ ~ In underscore s.

  Inductive item : pval -> Prop :=
  | item_none : item VNone
  | item_bool b : item (VBool b)
  | item_int n : 0 <= n -> item (VInt n)
  | item_str s : word s -> literal_eval s = None -> isnumeric uninumeric s = false -> item (VStr s)
  | item_other s : s <> [] -> word s -> literal_eval s = Some (VOther s) -> item (VOther s).

  Inductive restorable : pval -> Prop :=
  | rest_item v : item v -> restorable v
  | rest_negative n : n < 0 -> restorable (VInt n)
  | rest_negative_other s : word s -> literal_eval (dash :: s) = Some (VOther (dash :: s)) ->
      restorable (VOther (dash :: s))
  | rest_list v w l : v <> VStr [] -> item v -> item w -> Forall item l ->
      restorable (VList (v :: w :: l)).
End restorable.
