(** C108: parameters in paths, on command lines and in dictionaries. *)
From Verif Require Import Spec.SmallHelpers Proofs.SmallHelpersFacts.
Open Scope Z_scope.

(** A directory named by join_params: get_dir_params returns the directory above, sets in the given
    dictionary the parameters which come back (see C55), and leaves the others as they were. So paths of
    any number of such directories are read from the end. *)
Theorem C108_dir_params : forall (F : Type) (float_of : pystr -> option F) (fneg : F -> F) uni uninumeric numeq
  rooted cs (d : list (pystr * uval)) params0, Forall plain cs -> NoDup (map fst d) -> d <> [] ->
  (forall k v, In (k, v) d -> name_like float_of uninumeric k /\ ~ In dash k /\ exists r, comes_back float_of fneg uninumeric v r) ->
  (forall i, In i (map fst params0) -> exists s, i = IStr s) ->
  exists params, get_dir_params float_of fneg uni uninumeric numeq (path_text rooted (cs ++ [join_params d])) params0 = Ok (path_text rooted cs, params) /\
    (forall i, In i (map fst params) -> exists s, i = IStr s) /\
    (forall k v x, In (k, v) d -> comes_back float_of fneg uninumeric v x -> gd_get (item_eq numeq) params (IStr k) = Some x) /\
    (forall k, ~ In k (map fst d) -> gd_get (item_eq numeq) params (IStr k) = gd_get (item_eq numeq) params0 (IStr k)).
Proof. exact @dir_params_back. Qed.
Print Assumptions C108_dir_params.
Example C108_dir_ex : let float_of (s : pystr) : option Z := if streq s (lit "1.0") then Some 10 else None in
  let d := [(lit "alpha", UOne (UNum (lit "1.0") None)); (lit "alpha_decay", UOne (UInt (-1)))] in
  path_text true ([lit "tmp"] ++ [join_params d]) = lit "/tmp/alpha-1.0_alpha_decay--1" /\ Forall plain [lit "tmp"] /\ NoDup (map fst d) /\
  (forall k v, In (k, v) d -> name_like float_of (fun _ => false) k /\ ~ In dash k /\
     exists r, comes_back float_of Z.opp (fun _ => false) v r) /\
  get_dir_params float_of Z.opp (fun _ => None) (fun _ => false) (fun _ _ => false) (lit "/tmp/alpha-1.0_alpha_decay--1") [(IStr (lit "n"), POne (IInt 4))]
  = Ok (lit "/tmp", [(IStr (lit "n"), POne (IInt 4)); (IStr (lit "alpha"), POne (IFloat 10)); (IStr (lit "alpha_decay"), POne (IInt (-1)))]).
Proof. exact dir_example. Qed.

(** The command line as one string, split at white space, is the list of arguments, provided no argument
    is empty or has white space in it. *)
Theorem C108_arg_string_partial : forall uspace params, Forall (one_word uspace) (params_to_args params) ->
  words uspace (params_to_arg_string params) = params_to_args params.
Proof. exact arg_string_words. Qed.
Print Assumptions C108_arg_string_partial.
Example C108_arg_ex : params_to_arg_string [(lit "horizon", UOne (UInt 2)); (lit "f", UList [UStr (lit "a"); UStr (lit "b")])]
  = lit "--f a b --horizon 2" /\
  Forall (one_word (fun _ => false)) (params_to_args [(lit "horizon", UOne (UInt 2)); (lit "f", UList [UStr (lit "a"); UStr (lit "b")])]).
Proof.
  split; [reflexivity|]. repeat constructor; try discriminate; intros c H; cbn in H; repeat destruct H as [<-|H]; try reflexivity; destruct H.
Qed.

(** Values with blanks are not quoted. *)
Theorem C108_arg_string_refuted : forall uspace,
  words uspace (params_to_arg_string [(lit "f", UOne (UStr (lit "a b")))]) = [lit "--f"; lit "a"; lit "b"] /\
  params_to_args [(lit "f", UOne (UStr (lit "a b")))] = [lit "--f"; lit "a b"].
Proof. exact arg_string_blank. Qed.
Print Assumptions C108_arg_string_refuted.

(** confirm_membership *)
Theorem C108_membership : forall A (aeq : A -> A -> bool), (forall x y, aeq x y = true <-> x = y) ->
  forall required proposed, confirm_membership aeq required proposed = true <-> incl required proposed.
Proof. exact @membership. Qed.
Print Assumptions C108_membership.
Example C108_membership_ex : confirm_membership Z.eqb [1; 2] [3; 1; 2] = true /\ confirm_membership Z.eqb [1; 2] [3; 1] = false.
Proof. split; reflexivity. Qed.

(** dicts_exact_match tells whether the second dictionary extends the first. *)
Theorem C108_exact_match_partial : forall K V (keq : K -> K -> bool) (veq : V -> V -> bool) hashable,
  (forall x y, keq x y = true <-> x = y) -> (forall x y, veq x y = true <-> x = y) ->
  forall d1 d2, NoDup (map fst d1) -> NoDup (map fst d2) ->
  (forall k v, In (k, v) d1 -> hashable v = true) -> (forall k v, In (k, v) d2 -> hashable v = true) ->
  exists b, dicts_exact_match keq veq hashable d1 d2 = Ok b /\
    (b = true <-> forall k v, gd_get keq d1 k = Some v -> gd_get keq d2 k = Some v).
Proof. exact @exact_match. Qed.
Print Assumptions C108_exact_match_partial.

(** Asked both ways, it tells whether they are the same. *)
Theorem C108_match_both : forall K V (keq : K -> K -> bool) (veq : V -> V -> bool) hashable,
  (forall x y, keq x y = true <-> x = y) -> (forall x y, veq x y = true <-> x = y) ->
  forall d1 d2, NoDup (map fst d1) -> NoDup (map fst d2) ->
  (forall k v, In (k, v) d1 -> hashable v = true) -> (forall k v, In (k, v) d2 -> hashable v = true) ->
  dicts_exact_match keq veq hashable d1 d2 = Ok true -> dicts_exact_match keq veq hashable d2 d1 = Ok true ->
  forall k, gd_get keq d1 k = gd_get keq d2 k.
Proof. exact @match_both. Qed.
Print Assumptions C108_match_both.
Example C108_match_ex : dicts_exact_match Z.eqb Z.eqb (fun _ => true) [(1, 5); (2, 6)] [(2, 6); (1, 5)] = Ok true /\
  dicts_exact_match Z.eqb Z.eqb (fun _ => true) [(2, 6); (1, 5)] [(1, 5); (2, 6)] = Ok true /\
  dicts_exact_match Z.eqb Z.eqb (fun _ => true) [(1, 5); (2, 6)] [(2, 7); (1, 5)] = Ok false.
Proof. repeat split; reflexivity. Qed.

(** The empty dictionary matches every other; a value that is a list raises. *)
Theorem C108_exact_match_refuted : forall K V (keq : K -> K -> bool) (veq : V -> V -> bool) hashable d,
  (forall k v, In (k, v) d -> hashable v = true) -> dicts_exact_match keq veq hashable [] d = Ok true.
Proof. exact @match_empty. Qed.
Print Assumptions C108_exact_match_refuted.
Theorem C108_lists_refuted : forall K V (keq : K -> K -> bool) (veq : V -> V -> bool) hashable d1 d2 k v,
  In (k, v) (d1 ++ d2) -> hashable v = false -> dicts_exact_match keq veq hashable d1 d2 = Err TypeError.
Proof. exact @match_unhashable. Qed.
Print Assumptions C108_lists_refuted.
Example C108_refuted_ex : dicts_exact_match Z.eqb Z.eqb (fun v => 0 <=? v) [] [(1, 5)] = Ok true /\
  dicts_exact_match Z.eqb Z.eqb (fun v => 0 <=? v) [(1, -1)] [(1, -1)] = Err TypeError.
Proof. split; reflexivity. Qed.

(** The vector of a label has 1 in its place and 0 in all others. *)
Theorem C108_unit_vector : forall n label, 0 <= label < n ->
  exists v, unitizer n label = Ok v /\ length v = Z.to_nat n /\ forall i, nth i v 0 = if Z.of_nat i =? label then 1 else 0.
Proof. exact unit_vector. Qed.
Print Assumptions C108_unit_vector.
Theorem C108_unit_vectors_differ : forall n a b v, 0 <= a < n -> 0 <= b < n -> unitizer n a = Ok v -> unitizer n b = Ok v -> a = b.
Proof. exact unit_vectors_differ. Qed.
Print Assumptions C108_unit_vectors_differ.
Theorem C108_unit_outside : forall n label, label < - n \/ n <= label -> 0 <= n -> unitizer n label = Err IndexError.
Proof. exact unit_outside. Qed.
Print Assumptions C108_unit_outside.
Example C108_unit_ex : unitizer 4 2 = Ok [0; 0; 1; 0] /\ unitizer 4 4 = Err IndexError.
Proof. split; reflexivity. Qed.

(** Labels below 0 are not rejected but taken for other classes. *)
Theorem C108_unit_negative_refuted : forall n label, 0 <= label < n -> unitizer n (label - n) = unitizer n label.
Proof. exact unit_negative. Qed.
Print Assumptions C108_unit_negative_refuted.
Example C108_unit_negative_ex : unitizer 4 (-1) = Ok [0; 0; 0; 1] /\ unitizer 4 3 = Ok [0; 0; 0; 1].
Proof. split; reflexivity. Qed.
