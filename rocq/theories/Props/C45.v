(** C45: names made safe for files. *)
From Coq Require Import Permutation.
From Verif Require Import Spec.FileNames Proofs.FileNamesFacts.
Open Scope Z_scope.

(** A string keeps exactly its letters, digits, underscores, dots and dashes; cleaning twice is
    cleaning once, and safe strings are left alone. *)
Theorem C45_strings : forall s, exists t, clean_string (VStr s) = Ok t /\ Forall safe t /\
  (forall c, In c t <-> In c s /\ safe c) /\ clean_string (VStr t) = Ok t /\
  (Forall safe s <-> t = s).
Proof. exact clean_str. Qed.
Print Assumptions C45_strings.

(** in order, with repetitions: cleaning goes through concatenation *)
Theorem C45_concat : forall s1 s2 t1 t2,
  clean_string (VStr s1) = Ok t1 -> clean_string (VStr s2) = Ok t2 ->
  clean_string (VStr (s1 ++ s2)) = Ok (t1 ++ t2).
Proof. exact clean_app. Qed.
Print Assumptions C45_concat.

(** Lists and dictionaries, however nested, become safe strings if the keys are safe and not
    empty. *)
Theorem C45_values_partial : forall v, all_keys (fun k => k <> [] /\ Forall safe k) v ->
  exists t, clean_string v = Ok t /\ Forall safe t.
Proof. exact clean_values. Qed.
Print Assumptions C45_values_partial.
Example C45_values_ex :
  all_keys (fun k => k <> [] /\ Forall safe k)
    (VDict [(lit "b", VList [VInt 2; VDict [(lit "c", VStr (lit "x!"))]]); (lit "a", VBool true)]) /\
  clean_string (VDict [(lit "b", VList [VInt 2; VDict [(lit "c", VStr (lit "x!"))]]); (lit "a", VBool true)])
  = Ok (lit "a-True_b-2-c-x").
Proof.
  split; [|reflexivity].
  cbn. repeat split; try discriminate; repeat constructor; unfold safe; lia.
Qed.

(** Keys are not cleaned. *)
Theorem C45_keys_refuted : exists v t c, clean_string v = Ok t /\ In c t /\ ~ safe c.
Proof. exact names_not_cleaned. Qed.
Print Assumptions C45_keys_refuted.

(** It raises exactly when some key is empty. *)
Theorem C45_errors : forall v, (exists t, clean_string v = Ok t) <-> all_keys (fun k => k <> []) v.
Proof. exact clean_ok_iff. Qed.
Print Assumptions C45_errors.

(** The order of the entries of a dictionary does not matter. *)
Theorem C45_order : forall d d', NoDup (map fst d) -> Permutation d d' ->
  clean_string (VDict d) = clean_string (VDict d').
Proof. exact clean_order. Qed.
Print Assumptions C45_order.
Example C45_order_ex :
  NoDup (map fst [(lit "b", VInt 2); (lit "a", VInt 1)]) /\
  Permutation [(lit "b", VInt 2); (lit "a", VInt 1)] [(lit "a", VInt 1); (lit "b", VInt 2)].
Proof. split; [|apply perm_swap]. repeat constructor; cbn; intuition discriminate. Qed.
