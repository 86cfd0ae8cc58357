(** What command lines lose. *)
From Verif Require Import Proofs.StructuresMore Proofs.ArgsFacts Spec.ArgsSpec.
Open Scope Z_scope.

Section lost.
  Variable literal_eval : pystr -> option pval.
  Variable uni : pystr -> option Z.
  Variable uninumeric : pystr -> bool.
  Variable pval_eq : pval -> pval -> bool.
  Variable other_int : pystr -> option Z.
  Variable is_float : pystr -> bool.
  Variable to_float : pval -> option pval.
  Variable to_str : pval -> pystr.
  Variable other_true : pystr -> bool.
  Variable unineg : pystr -> bool.
  Notation construct := (construct literal_eval uni uninumeric other_int is_float to_float to_str other_true).
  Notation from_args := (from_args literal_eval uni uninumeric other_int is_float to_float to_str other_true unineg).
  Notation from_string := (from_string literal_eval uni uninumeric other_int is_float to_float to_str other_true unineg).
  Notation from_wildcard := (from_wildcard literal_eval uni uninumeric pval_eq other_int is_float to_float to_str other_true unineg).
  Notation from_dir_string := (from_dir_string literal_eval uni uninumeric pval_eq other_int is_float to_float to_str other_true).
  Notation get_arg_string := (get_arg_string other_true).

  Definition lists := [with_default (VList [VInt 1; VInt 2]) (named "cut" CList)].
  Lemma list_default_lost : construct lists [] [] = Ok [(lit "cut", Some (VList [VInt 1; VInt 2]))] /\
    from_args lists [] [] = Ok [(lit "cut", Some (VList []))].
  Proof. split; vm_compute; reflexivity. Qed.

  Definition keyed := [with_default (VDict [(lit "a", VInt 0)]) (named "cut" CKeyed)].
  Lemma keyed_default_lost : exists v, construct keyed [] [] = Ok [(lit "cut", Some v)] /\ v <> VNone /\
    from_args keyed [] [] = Ok [(lit "cut", Some VNone)].
  Proof. eexists. split; [vm_compute; reflexivity|]. split; [discriminate|]. vm_compute; reflexivity. Qed.

  Definition number := [required (with_default (VInt 3) (named "count" CInt))].
  Lemma required_default_lost : construct number [] [] = Ok [(lit "count", Some (VInt 3))] /\ from_args number [] [] = Err SystemExit.
  Proof. split; vm_compute; reflexivity. Qed.

  Lemma optional_number : construct [named "count" CInt] [] [] = Ok [] /\ from_args [named "count" CInt] [] [] = Err TypeError.
  Proof. split; vm_compute; reflexivity. Qed.
  Lemma optional_text : construct [named "label" CStr] [] [] = Ok [] /\
    from_args [named "label" CStr] [] [] = Ok [(lit "label", Some (VStr (to_str VNone)))].
  Proof. split; vm_compute; reflexivity. Qed.

  Lemma optional_lost : (construct [named "count" CInt] [] [] = Ok [] /\ from_args [named "count" CInt] [] [] = Err TypeError) /\
    (construct [named "label" CStr] [] [] = Ok [] /\ from_args [named "label" CStr] [] [] = Ok [(lit "label", Some (VStr (to_str VNone)))]).
  Proof. exact (conj optional_number optional_text). Qed.

  Lemma short_captured : from_args [named "al" CInt] [] [lit "--al"; lit "5"] = Ok [(lit "al", Some (VInt 5))] /\
    from_args [named "alpha" CInt] [] [lit "--al"; lit "5"] = Ok [(lit "alpha", Some (VInt 5))] /\
    from_args [named "h" CInt] [] [lit "--h"; lit "5"] = Ok [(lit "h", Some (VInt 5))] /\
    from_args [with_default (VInt 0) (named "alpha" CInt)] [] [lit "--h"; lit "5"] = Err SystemExit.
  Proof. repeat split; vm_compute; reflexivity. Qed.

  Lemma plural_conflict : exists inst, construct [named "x" CList; named "xs" CStr] [] [(lit "x", VInt 1); (lit "xs", VStr (lit "a"))] = Ok inst /\
    forall args, from_args [named "x" CList; named "xs" CStr] [] args = Err ArgumentError.
  Proof. eexists. split; [vm_compute; reflexivity|]. intros args. vm_compute. reflexivity. Qed.

  (** texts with a space *)
  Lemma space_lost : get_arg_string [named "label" CStr] [(lit "label", Some (VStr (lit "two words")))] = Ok (lit "--label two words") /\
    from_string [named "label" CStr] [] (lit "--label two words") = Ok [(lit "label", Some (VStr (lit "two")))].
  Proof. split; vm_compute; reflexivity. Qed.
  (** numbers of a field without a class *)
  Lemma number_lost : get_arg_string [named "x" CAny] [(lit "x", Some (VInt 5))] = Ok (lit "--x 5") /\
    from_string [named "x" CAny] [] (lit "--x 5") = Ok [(lit "x", Some (VStr (lit "5")))].
  Proof. split; vm_compute; reflexivity. Qed.
  (** a list that begins with a negative number *)
  Lemma negative_lost : get_arg_string [named "cut" CList] [(lit "cut", Some (VList [VInt (-1); VInt 2]))] = Ok (lit "--cut -1-2") /\
    from_string [named "cut" CList] [] (lit "--cut -1-2") = Err SystemExit.
  Proof. split; vm_compute; reflexivity. Qed.
  (** a negative number with an exponent *)
  Lemma exponent_lost : get_arg_string [named "rate" CFloat] [(lit "rate", Some (VOther (lit "-1e-05")))] = Ok (lit "--rate -1e-05") /\
    from_string [named "rate" CFloat] [] (lit "--rate -1e-05") = Err SystemExit.
  Proof. split; vm_compute; reflexivity. Qed.
  (** two values of a field with several *)
  Lemma several_lost : get_arg_string [with_nargs NPlus (named "tag" CStr)] [(lit "tag", Some (VList [VStr (lit "a"); VStr (lit "b")]))] = Ok (lit "--tag a-b") /\
    from_string [with_nargs NPlus (named "tag" CStr)] [] (lit "--tag a-b") = Ok [(lit "tag", Some (VList [VStr (lit "a-b")]))].
  Proof. split; vm_compute; reflexivity. Qed.
  (** a dictionary before a field that is not set *)
  Lemma unset_lost : get_arg_string [named "key" CKeyed; named "x" CAny] [(lit "key", Some (VDict [(lit "a", VInt 0)]))] = Ok (lit "--key a-0 ") /\
    from_string [named "key" CKeyed; named "x" CAny] [] (lit "--key a-0 ") = Err IndexError.
  Proof. split; vm_compute; [reflexivity|]. now destruct (literal_eval [48]). Qed.
  (** a directory with two dashes *)
  Lemma directory_lost : from_dir_string [named "label" CStr] [] (lit "label-a--b") = Ok [(lit "label", Some (VStr (lit "a--b")))] /\
    from_wildcard [named "label" CStr] [] (WText (lit "label-a--b")) = Ok [(lit "label", Some (VStr (to_str VNone)))].
  Proof. split; vm_compute; reflexivity. Qed.
End lost.
