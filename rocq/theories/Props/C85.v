(** C85: setting attributes and checking parameters. *)
From Verif Require Import Spec.ChecksSpec Proofs.ChecksFacts.
Open Scope Z_scope.

(** set_attributes sets the parameters it is to set, and no other attribute. *)
Theorem C85_sets : forall include_all validate valid params obj obj2, NoDup (map fst params) ->
  set_attributes include_all validate valid params obj = (obj2, Ok tt) ->
  forall k, (forall v, gd_get streq params k = Some v -> wanted include_all valid k -> gd_get streq obj2 k = Some v) /\
    (gd_get streq params k = None \/ ~ wanted include_all valid k -> gd_get streq obj2 k = gd_get streq obj k).
Proof. exact sets. Qed.
Print Assumptions C85_sets.

Definition abc (a b : pval) : attrs := [(lit "a", a); (lit "b", b)].
Example C85_sets_ex : NoDup (map fst [(lit "a", VInt 4); (lit "c", VInt 4)]) /\
  set_attributes false true [lit "a"; lit "b"] [(lit "a", VInt 4); (lit "c", VInt 4)] (abc (VInt 1) (VInt 3)) = (abc (VInt 4) (VInt 3), Ok tt) /\
  set_attributes true true [lit "a"; lit "b"] [(lit "a", VInt 4); (lit "c", VNone)] (abc (VInt 1) (VInt 3)) =
    ([(lit "a", VInt 4); (lit "b", VInt 3); (lit "c", VNone)], Ok tt).
Proof.
  split; [constructor; [intros [H|[]]; discriminate H|constructor; [intros []|constructor]]|]. split; vm_compute; reflexivity.
Qed.

(** It succeeds exactly if all valid parameters have a value and those that are checked are not None. *)
Theorem C85_succeeds : forall include_all validate valid params obj, NoDup (map fst params) ->
  ((exists obj2, set_attributes include_all validate valid params obj = (obj2, Ok tt)) <->
   (forall k, In k valid -> exists v, due valid params obj k v) /\
   (validate = true -> forall k, checked include_all valid k -> ~ due valid params obj k VNone)).
Proof. exact succeeds. Qed.
Print Assumptions C85_succeeds.

Example C85_succeeds_ex :
  snd (set_attributes true true [] (abc (VInt 6) VNone) []) = Err ParameterException /\
  snd (set_attributes true true [lit "a"] (abc (VInt 6) VNone) []) = Ok tt /\
  snd (set_attributes true false [lit "d"] (abc (VInt 6) VNone) []) = Err ParameterException /\
  snd (set_attributes true true [lit "c"] (abc (VInt 6) VNone) [(lit "c", VNone)]) = Err ParameterException.
Proof. repeat apply conj; vm_compute; reflexivity. Qed.

(** If it fails the exception is ParameterException, and every attribute is as before or as given. *)
Theorem C85_fails_partial : forall include_all validate valid params obj obj2 e,
  set_attributes include_all validate valid params obj = (obj2, Err e) -> e = ParameterException /\
  forall k, gd_get streq obj2 k = gd_get streq obj k \/
    wanted include_all valid k /\ exists v, gd_get streq obj2 k = Some v /\ In (k, v) params.
Proof. exact fails. Qed.
Print Assumptions C85_fails_partial.

Example C85_fails_ex : set_attributes true true [] (abc (VInt 6) VNone) (abc (VInt 5) (VInt 5)) = (abc (VInt 6) (VInt 5), Err ParameterException).
Proof. vm_compute. reflexivity. Qed.

(** Nothing is set if a valid parameter is missing, *)
Theorem C85_missing : forall include_all validate valid params obj k, In k valid -> gd_get streq params k = None -> gd_get streq obj k = None ->
  set_attributes include_all validate valid params obj = (obj, Err ParameterException).
Proof. exact missing_unchanged. Qed.
Print Assumptions C85_missing.

Example C85_missing_ex : In (lit "d") [lit "a"; lit "d"] /\
  set_attributes true true [lit "a"; lit "d"] (abc (VInt 10) (VInt 10)) (abc (VInt 9) (VInt 9)) = (abc (VInt 9) (VInt 9), Err ParameterException).
Proof. split; [right; now left|vm_compute; reflexivity]. Qed.

(** but with a value None some attributes may be set before the exception. *)
Theorem C85_fails_refuted : exists params obj obj2, set_attributes true true [] params obj = (obj2, Err ParameterException) /\
  gd_get streq obj (lit "a") = Some (VInt 5) /\ gd_get streq obj2 (lit "a") = Some (VInt 6).
Proof. exact half_set. Qed.
Print Assumptions C85_fails_refuted.

(** validate_params without values asks for the names only. *)
Theorem C85_names : forall veq params required, validate_params veq params required false = true <-> incl (names_of required) (names_of params).
Proof. exact names_only. Qed.
Print Assumptions C85_names.

Example C85_names_ex : validate_params pval_eqb (GList [lit "a"; lit "b"; lit "c"]) (GDict [(lit "b", VNone)]) false = true /\
  validate_params pval_eqb (GDict (abc VNone VNone)) (GList [lit "a"; lit "d"]) false = false.
Proof. split; vm_compute; reflexivity. Qed.

(** With values and names required, each is to have a value other than None. *)
Theorem C85_values : forall veq d l, validate_params veq (GDict d) (GList l) true = true <-> forall k, In k l -> exists v, gd_get streq d k = Some v /\ v <> VNone.
Proof. exact values_set. Qed.
Print Assumptions C85_values.

Example C85_values_ex : validate_params pval_eqb (GDict (abc (VInt 0) (VBool false))) (GList [lit "a"; lit "b"]) true = true /\
  validate_params pval_eqb (GDict (abc VNone (VInt 1))) (GList [lit "a"; lit "b"]) true = false.
Proof. split; vm_compute; reflexivity. Qed.

(** A list of parameters has no values. *)
Theorem C85_no_values : forall veq l required, validate_params veq (GList l) required true = true <-> names_of required = [].
Proof. exact list_has_no_values. Qed.
Print Assumptions C85_no_values.

Example C85_no_values_ex : validate_params pval_eqb (GList [lit "a"]) (GList [lit "a"]) true = false.
Proof. vm_compute. reflexivity. Qed.

(** With values required, each is to be one that its requirement admits. *)
Theorem C85_match : forall veq, (forall x y, veq x y = true <-> x = y) -> forall d r, NoDup (map fst r) ->
  (validate_params veq (GDict d) (GDict r) true = true <->
   forall k x, In (k, x) r -> exists v, gd_get streq d k = Some v /\ admits x v).
Proof. exact values_match. Qed.
Print Assumptions C85_match.

Example C85_match_ex : (forall x y, pval_eqb x y = true <-> x = y) /\
  validate_params pval_eqb (GDict (abc VNone (VInt 1))) (GDict (abc (VList [VInt 0; VNone]) (VInt 1))) true = true /\
  validate_params pval_eqb (GDict (abc VNone (VInt 1))) (GDict (abc VNone (VInt 2))) true = false.
Proof. split; [exact pval_eqb_spec|]. split; vm_compute; reflexivity. Qed.

(** For a required string any part of it will do, also the empty string, *)
Theorem C85_part_refuted : forall veq, (forall x y, veq x y = true <-> x = y) -> forall k a t b,
  validate_params veq (GDict [(k, VStr t)]) (GDict [(k, VStr (a ++ t ++ b))]) true = true.
Proof. exact string_parts. Qed.
Print Assumptions C85_part_refuted.

Example C85_part_ex : validate_params pval_eqb (GDict [(lit "model", VStr (lit "tw"))]) (GDict [(lit "model", VStr (lit "ptw_kt"))]) true = true.
Proof. vm_compute. reflexivity. Qed.

(** and a list never has the value required of it. *)
Theorem C85_list_refuted : forall veq, (forall x y, veq x y = true <-> x = y) -> forall k l,
  validate_params veq (GDict [(k, VList l)]) (GDict [(k, VList l)]) true = false.
Proof. exact list_refused. Qed.
Print Assumptions C85_list_refuted.

Example C85_list_ex : validate_params pval_eqb (GDict [(lit "a", VList [VInt 1; VInt 2])]) (GDict [(lit "a", VList [VInt 1; VInt 2])]) true = false.
Proof. vm_compute. reflexivity. Qed.
