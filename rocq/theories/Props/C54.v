(** C54: parameters come back from file names. *)
From Coq Require Import Permutation.
From Verif Require Import Spec.FileNames Proofs.FileNamesFacts.
Open Scope Z_scope.

(** As texts: keys may contain underscores but no dash, cleaned values no underscore. *)
Theorem C54_texts : forall d s, d <> [] -> NoDup (map fst d) -> clean_string (VDict d) = Ok s ->
  (forall k v, In (k, v) d -> ~ In dash k) ->
  (forall k v t, In (k, v) d -> clean_string v = Ok t -> ~ In underscore t) ->
  exists params, split_params_flat s = Ok params /\
    Permutation (map fst params) (map fst d) /\
    forall k v t, In (k, v) d -> clean_string v = Ok t -> gd_get streq params k = Some (Some t).
Proof. exact flat_round. Qed.
Print Assumptions C54_texts.
Example C54_texts_ex :
  clean_string (VDict [(lit "safe_mode", VBool false); (lit "f", VList [VStr (lit "a"); VInt 3])])
    = Ok (lit "f-a-3_safe_mode-False") /\
  split_params_flat (lit "f-a-3_safe_mode-False")
    = Ok [(lit "f", Some (lit "a-3")); (lit "safe_mode", Some (lit "False"))].
Proof. split; reflexivity. Qed.

(** As values: numbers, booleans, None, strings in one piece that do not read as literals, and lists
    of at least two of these without negative numbers. *)
Theorem C54_values_partial : forall literal_eval uni uninumeric, evaluates literal_eval ->
  forall d s, d <> [] -> NoDup (map fst d) -> clean_string (VDict d) = Ok s ->
  (forall k v, In (k, v) d -> ~ In dash k /\ restorable literal_eval uninumeric v) ->
  exists params, split_params literal_eval uni uninumeric s = Ok params /\ Permutation params d.
Proof. exact deep_round. Qed.
Print Assumptions C54_values_partial.
Example C54_values_ex : forall literal_eval, literal_eval (lit "emg") = None ->
  forall k v, In (k, v) [(lit "n_steps", VInt (-5)); (lit "f", VList [VStr (lit "emg"); VInt 3])] ->
  ~ In dash k /\ restorable literal_eval (fun _ => false) v.
Proof.
  intros le L k v [E|[E|[]]]; injection E as <- <-.
  - split; [cbn; unfold dash; lia|]. apply rest_negative. lia.
  - split; [cbn; unfold dash; lia|]. apply rest_list; [discriminate| | |constructor].
    + apply item_str; [|exact L|reflexivity].
      split; [repeat constructor; unfold safe; cbn; lia|]. split; cbn; unfold dash, underscore; lia.
    + apply item_int. lia.
Qed.

(** Not restored: the empty dictionary, lists of one value, strings that read as numbers, floats
    whose text has a dash. *)
Theorem C54_empty_refuted :
  clean_string (VDict []) = Ok [] /\ split_params_flat [] = Ok [([], None)].
Proof. exact empty_not_restored. Qed.
Print Assumptions C54_empty_refuted.

Theorem C54_short_list_refuted : forall literal_eval uni uninumeric, evaluates literal_eval ->
  forall n, 0 <= n ->
  exists s, clean_string (VDict [(lit "k", VList [VInt n])]) = Ok s /\
    split_params literal_eval uni uninumeric s = Ok [(lit "k", VInt n)].
Proof. exact short_list_lost. Qed.
Print Assumptions C54_short_list_refuted.

Theorem C54_number_string_refuted : forall literal_eval uni uninumeric, evaluates literal_eval ->
  forall n, exists s, clean_string (VDict [(lit "k", VStr (str_of_int n))]) = Ok s /\
    split_params literal_eval uni uninumeric s = Ok [(lit "k", VInt n)].
Proof. exact number_string_lost. Qed.
Print Assumptions C54_number_string_refuted.

Theorem C54_small_float_refuted : forall literal_eval uni uninumeric,
  literal_eval (lit "1e") = None -> literal_eval (lit "05") = None ->
  exists s, clean_string (VDict [(lit "k", VOther (lit "1e-05"))]) = Ok s /\
    split_params literal_eval uni uninumeric s = Ok [(lit "k", VList [VStr (lit "1e"); VInt 5])].
Proof. exact small_float_lost. Qed.
Print Assumptions C54_small_float_refuted.

(** de_string always comes to an end. *)
Theorem C54_de_string_ends : forall literal_eval uni uninumeric s,
  de_string literal_eval uni uninumeric s <> Err OutOfFuel.
Proof. exact de_string_total. Qed.
Print Assumptions C54_de_string_ends.
