(** C84: grouping parameter sets. *)
From Coq Require Import Permutation.
From Verif Require Import Spec.GroupsSpec Proofs.GroupsFacts.
Open Scope Z_scope.

(** Groups have different names, hold the sets in their order, and every set is in one of them, once. *)
Theorem C84_partition : forall ps keys, exists name : params -> pystr, NoDup (map fst (group_by_keys ps keys)) /\
  (forall k, gd_get streq (group_by_keys ps keys) k = match filter (fun p => streq (name p) k) ps with [] => None | l => Some l end) /\
  Permutation (concat (map snd (group_by_keys ps keys))) ps.
Proof. exact keys_partition. Qed.
Print Assumptions C84_partition.

Definition counter : params := [(lit "a", UOne (UInt 0)); (lit "b", UOne (UInt 1)); (lit "c", UOne (UInt 2)); (lit "name", UOne (UStr (lit "counter")))].
Definition jumper : params := [(lit "a", UOne (UInt 0)); (lit "b", UOne (UInt 1)); (lit "c", UOne (UInt 3)); (lit "name", UOne (UStr (lit "jumper")))].
Definition greek : params := [(lit "a", UOne (UInt 0)); (lit "b", UOne (UStr (lit "beta"))); (lit "name", UOne (UStr (lit "greek")))].
Example C84_partition_ex :
  group_by_keys [counter; jumper; greek] [lit "a"; lit "b"] = [(lit "a-0_b-1", [counter; jumper]); (lit "a-0_b-beta", [greek])] /\
  group_by_keys [counter; jumper; greek] [lit "c"; lit "b"] = [(lit "b-1_c-2", [counter]); (lit "b-1_c-3", [jumper]); (lit "b-beta_c-None", [greek])] /\
  group_by_keys [counter; jumper; greek] (letters (lit "a")) = [(lit "a-0", [counter; jumper; greek])].
Proof. repeat apply conj; vm_compute; reflexivity. Qed.

(** The name of the group of a set has its keys, sorted, with their values. *)
Theorem C84_name : forall ps keys p, keys <> [] -> NoDup keys -> In p ps ->
  exists l, gd_get streq (group_by_keys ps keys) (join [underscore] (map (fun k => k ++ [dash] ++ key_text k p) (sort strle keys))) = Some l /\ In p l.
Proof. exact keys_name. Qed.
Print Assumptions C84_name.

Example C84_name_ex : NoDup [lit "c"; lit "b"] /\
  join [underscore] (map (fun k => k ++ [dash] ++ key_text k greek) (sort strle [lit "c"; lit "b"])) = lit "b-beta_c-None".
Proof. split; [|vm_compute; reflexivity]. constructor; [intros [H|[]]; discriminate H|constructor; [intros []|constructor]]. Qed.

(** If a key has whole numbers, or words, sets are in one group exactly if they have the same values. *)
Theorem C84_values_partial : forall ps keys p q, NoDup keys -> In p ps -> In q ps ->
  (forall k, In k keys -> comparable (gd_get streq p k) (gd_get streq q k)) ->
  (together (group_by_keys ps keys) p q <-> forall k, In k keys -> gd_get streq p k = gd_get streq q k).
Proof. exact same_values. Qed.
Print Assumptions C84_values_partial.

Example C84_values_ex : (forall k, In k [lit "b"; lit "c"] -> comparable (gd_get streq counter k) (gd_get streq jumper k)) /\
  ~ together (group_by_keys [counter; jumper] [lit "b"; lit "c"]) counter jumper /\ together (group_by_keys [counter; jumper] [lit "b"]) counter jumper.
Proof.
  assert (HC : forall k, In k [lit "b"; lit "c"] -> comparable (gd_get streq counter k) (gd_get streq jumper k)).
  { intros k [<-|[<-|[]]]; left; split; right; eexists; vm_compute; reflexivity. }
  assert (HN : NoDup [lit "b"; lit "c"]) by (constructor; [intros [H|[]]; discriminate H|constructor; [intros []|constructor]]).
  split; [exact HC|]. split.
  - intros H. apply (C84_values_partial [counter; jumper] [lit "b"; lit "c"] counter jumper HN (or_introl eq_refl) (or_intror (or_introl eq_refl)) HC) with (k := lit "c") in H;
      [vm_compute in H; discriminate H|right; now left].
  - exists (lit "b-1"), [counter; jumper]. repeat apply conj; [vm_compute; now left|now left|right; now left].
Qed.

(** In general sets with different values are in one group: a number is taken for its text, a missing key for None. *)
Theorem C84_texts_refuted : exists p q r s, gd_get streq p (lit "a") = Some (UOne (UInt 1)) /\ gd_get streq q (lit "a") = Some (UOne (UStr (lit "1"))) /\
  gd_get streq r (lit "a") = None /\ gd_get streq s (lit "a") = Some (UOne (UStr (lit "None"))) /\
  group_by_keys [p; q; r; s] [lit "a"] = [(lit "a-1", [p; q]); (lit "a-None", [r; s])] /\
  forall list_text, group_by_key list_text [p; q; r; s] (lit "a") = [(lit "None", [r; s]); (lit "1", [p; q])].
Proof. exact mixed_groups. Qed.
Print Assumptions C84_texts_refuted.

(** A part of a value may be taken for a part of the next. *)
Theorem C84_joined_refuted : exists p q, gd_get streq p (lit "a") <> gd_get streq q (lit "a") /\ gd_get streq p (lit "b") <> gd_get streq q (lit "b") /\
  group_by_keys [p; q] [lit "a"; lit "b"] = [(lit "a-x_b-y_b-z", [p; q])].
Proof. exact joined_values. Qed.
Print Assumptions C84_joined_refuted.

(** A key given as a string is taken for the list of its letters: if the sets have none of them there is one group. *)
Theorem C84_letters_refuted : forall ps s, s <> [] -> (forall p c, In p ps -> In c s -> gd_get streq p [c] = None) -> ps <> [] ->
  exists k, group_by_keys ps (letters s) = [(k, ps)].
Proof. exact letters_group. Qed.
Print Assumptions C84_letters_refuted.

Example C84_letters_ex : let ps := [[(lit "name", UOne (UStr (lit "jumper")))]; [(lit "name", UOne (UStr (lit "greek")))]] in
  group_by_keys ps [lit "name"] = [(lit "name-jumper", firstn 1 ps); (lit "name-greek", skipn 1 ps)] /\
  group_by_keys ps (letters (lit "name")) = [(lit "a-None_e-None_m-None_n-None", ps)].
Proof. split; vm_compute; reflexivity. Qed.

(** Without keys there is one group. *)
Theorem C84_no_keys : forall ps, ps <> [] -> group_by_keys ps [] = [([], ps)].
Proof. exact no_keys. Qed.
Print Assumptions C84_no_keys.

Example C84_no_keys_ex : group_by_keys [counter; greek] [] = [([], [counter; greek])].
Proof. vm_compute. reflexivity. Qed.

(** By one key: the groups are named by the texts of its values, with one for None in any case. *)
Theorem C84_key : forall list_text ps key, NoDup (map fst (group_by_key list_text ps key)) /\
  (forall k, gd_get streq (group_by_key list_text ps key) k =
     match filter (fun p => streq (shown_as list_text key p) k) ps with [] => if streq (lit "None") k then Some [] else None | l => Some l end) /\
  Permutation (concat (map snd (group_by_key list_text ps key))) ps.
Proof. exact key_groups. Qed.
Print Assumptions C84_key.

Example C84_key_ex : forall list_text,
  group_by_key list_text [counter; jumper; greek] (lit "b") = [(lit "None", []); (lit "1", [counter; jumper]); (lit "beta", [greek])] /\
  group_by_key list_text [counter; jumper; greek] (lit "c") = [(lit "None", [greek]); (lit "2", [counter]); (lit "3", [jumper])].
Proof. intros list_text. split; vm_compute; reflexivity. Qed.

(** A set matches exactly if it has all required keys, with the values set for them. *)
Theorem C84_required : forall veq, (forall x y, veq x y = true <-> x = y) -> forall candidate settings required,
  check_param_matches veq candidate settings required [] = Ok true <->
  forall k, In k required -> exists v, gd_get streq candidate k = Some v /\ forall w, gd_get streq settings k = Some w -> w = v.
Proof. exact matches_required. Qed.
Print Assumptions C84_required.

Example C84_required_ex : (forall x y, uval_eqb x y = true <-> x = y) /\
  check_param_matches uval_eqb counter [(lit "b", UOne (UInt 1))] [lit "a"; lit "b"] [] = Ok true /\
  check_param_matches uval_eqb greek [(lit "b", UOne (UInt 1))] [lit "a"; lit "b"] [] = Ok false /\
  check_param_matches uval_eqb greek [] [lit "c"] [] = Ok false.
Proof. split; [exact uval_eqb_spec|]. repeat apply conj; vm_compute; reflexivity. Qed.

(** Restricted keys are to have other values. *)
Theorem C84_restricted_partial : forall veq, (forall x y, veq x y = true <-> x = y) -> forall candidate settings required restricted,
  (forall k, In k restricted -> gd_get streq candidate k <> None /\ gd_get streq settings k <> None) ->
  (check_param_matches veq candidate settings required restricted = Ok true <->
   check_param_matches veq candidate settings required [] = Ok true /\ forall k, In k restricted -> gd_get streq candidate k <> gd_get streq settings k).
Proof. exact matches_restricted. Qed.
Print Assumptions C84_restricted_partial.

Example C84_restricted_ex : (forall k, In k [lit "c"] -> gd_get streq jumper k <> None /\ gd_get streq counter k <> None) /\
  check_param_matches uval_eqb jumper counter [lit "a"; lit "b"] [lit "c"] = Ok true /\
  check_param_matches uval_eqb jumper counter [lit "a"] [lit "c"; lit "b"] = Ok false.
Proof. split; [intros k [<-|[]]; split; vm_compute; discriminate|]. split; vm_compute; reflexivity. Qed.

(** A restricted key that one of them does not have raises KeyError. *)
Theorem C84_restricted_refuted : forall veq candidate settings k, gd_get streq candidate k = None \/ gd_get streq settings k = None ->
  check_param_matches veq candidate settings [] [k] = Err KeyError.
Proof. exact restricted_raises. Qed.
Print Assumptions C84_restricted_refuted.

Example C84_restricted_raises_ex : gd_get streq greek (lit "c") = None /\ check_param_matches uval_eqb greek counter [] [lit "c"] = Err KeyError.
Proof. split; vm_compute; reflexivity. Qed.
