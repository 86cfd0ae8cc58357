(** C66: the directory string of a Structure is read back. *)
From Coq Require Import Permutation.
From Verif Require Import Spec.StructureSpec Proofs.StructuresTop Proofs.StructuresNeg Proofs.StructuresMore.
Open Scope Z_scope.

(** Under any base directory, params_from_dir_string gives the base directory back and for every field
    that is shown and set the text of its value (the value itself for named positional fields), and
    nothing else. *)
Theorem C66_texts : forall literal_eval uni uninumeric pval_eq fs inst base,
  class_ok fs -> inst_ok literal_eval uninumeric fs inst -> normal_dir base ->
  (forall d, get_dir_string fs inst = Ok d -> contains (lit "txt") (path_ext d) = false) ->
  exists d params, get_dir_string fs inst = Ok d /\
    params_from_dir_string literal_eval uni uninumeric pval_eq fs false (path_join2 base d) = Ok params /\
    gd_get streq params (lit "base_dir") = Some (VStr base) /\
    (forall f v, In f fs -> shown f -> get_attr inst (f_name f) = Some v -> exists t, value_text v t /\
       if f_positional f && f_keyword f
       then exists r, de_string literal_eval uni uninumeric t = Ok r /\ gd_get streq params (f_name f) = Some r
       else gd_get streq params (f_name f) = Some (VStr t)) /\
    (forall f, In f fs -> f_transient f = true \/ get_attr inst (f_name f) = None ->
       gd_get streq params (f_name f) = None) /\
    (forall k, ~ In k (map f_name fs) -> k <> lit "base_dir" -> gd_get streq params k = None).
Proof. exact structure_texts. Qed.
Print Assumptions C66_texts.

(** from_dir_string rebuilds the values of all fields shown (dictionaries up to their order), sets the
    base directory if the class inherits it, and the new instance has the same directory string. *)
Theorem C66_values : forall literal_eval uni uninumeric pval_eq other_int is_float to_float to_str other_true,
  evaluates literal_eval -> forall fs inherited inst base,
  class_ok fs -> inst_ok literal_eval uninumeric fs inst ->
  all_kept literal_eval uninumeric is_float fs inst -> normal_dir base ->
  (forall n, In n inherited -> ~ In n (map f_name fs)) ->
  (forall d, get_dir_string fs inst = Ok d -> contains (lit "txt") (path_ext d) = false) ->
  exists d inst2, get_dir_string fs inst = Ok d /\
    from_dir_string literal_eval uni uninumeric pval_eq other_int is_float to_float to_str other_true
      fs inherited (path_join2 base d) = Ok inst2 /\
    (forall f, In f fs -> shown f ->
       match get_attr inst (f_name f), get_attr inst2 (f_name f) with
       | Some v, Some w => same_value v w
       | None, None => True
       | _, _ => False
       end) /\
    (In (lit "base_dir") inherited -> get_attr inst2 (lit "base_dir") = Some (VStr base)) /\
    get_dir_string fs inst2 = Ok d.
Proof. exact structure_values. Qed.
Print Assumptions C66_values.

(** Two such instances with the same directory string have the same values. *)
Theorem C66_injective : forall literal_eval uninumeric (is_float : pystr -> bool), evaluates literal_eval ->
  forall fs a b d, class_ok fs ->
  inst_ok literal_eval uninumeric fs a -> all_kept literal_eval uninumeric is_float fs a ->
  inst_ok literal_eval uninumeric fs b -> all_kept literal_eval uninumeric is_float fs b ->
  get_dir_string fs a = Ok d -> get_dir_string fs b = Ok d -> contains (lit "txt") (path_ext d) = false ->
  forall f, In f fs -> shown f ->
    match get_attr a (f_name f), get_attr b (f_name f) with
    | Some v, Some w => same_value v w
    | None, None => True
    | _, _ => False
    end.
Proof. exact structure_injective_plain. Qed.
Print Assumptions C66_injective.

(** The string does not depend on the order in which the fields at the end are declared. *)
Theorem C66_order : forall inst fs gs d, Permutation fs gs -> filter f_positional fs = filter f_positional gs ->
  get_dir_string fs inst = Ok d -> get_dir_string gs inst = Ok d.
Proof. exact fields_order. Qed.
Print Assumptions C66_order.
Example C66_order_ex :
  let a := named "a" CInt in let b := named "b" CInt in let p := positional (unnamed (named "p" CStr)) in
  Permutation [b; p; a] [p; a; b] /\ filter f_positional [b; p; a] = filter f_positional [p; a; b] /\
  get_dir_string [b; p; a] [attr "a" (VInt 1); attr "b" (VInt 2); attr "p" (VStr (lit "x"))] = Ok (lit "x/a-1_b-2").
Proof.
  split; [|split; vm_compute; reflexivity].
  apply (Permutation_trans (perm_swap _ _ _)). apply perm_skip, perm_swap.
Qed.

(** Paths are read alike with superfluous slashes and dots. *)
Theorem C66_spelling : forall literal_eval uni uninumeric pval_eq fs deep rooted comps p,
  Forall plain comps -> comps <> [] -> spells rooted comps p ->
  contains (lit "txt") (path_ext p) = false -> contains (lit "txt") (path_ext (path_text rooted comps)) = false ->
  params_from_dir_string literal_eval uni uninumeric pval_eq fs deep p =
  params_from_dir_string literal_eval uni uninumeric pval_eq fs deep (path_text rooted comps).
Proof. exact any_spelling. Qed.
Print Assumptions C66_spelling.
Example C66_spelling_ex : spells true [lit "data"; lit "a-1"] (lit "/data/.//a-1/") /\
  path_text true [lit "data"; lit "a-1"] = lit "/data/a-1".
Proof. split; [split; [reflexivity|eexists; split; reflexivity]|reflexivity]. Qed.

(** a class with every kind of field, and an instance of it *)
Example C66_ex :
  let fs := [required (positional (unnamed (named "exp" CStr))); positional (named "seed" CInt);
             required (unnamed (named "model" CAny)); named "alpha" CInt; named "names" CList;
             named "opts" CKeyed; named "flag" CBool] in
  let inst := [attr "exp" (VStr (lit "coin_1")); attr "seed" (VInt 5); attr "model" (VStr (lit "PTW"));
               attr "alpha" (VInt (-3)); attr "names" (VList [VStr (lit "a"); VInt 2]);
               attr "opts" (VDict [(lit "depth", VInt 4)])] in
  class_ok fs /\ inst_ok simple_eval (fun _ => false) fs inst /\
  all_kept simple_eval (fun _ => false) (fun _ => false) fs inst /\ evaluates simple_eval /\
  normal_dir (lit "/data/x") /\
  get_dir_string fs inst = Ok (lit "coin_1/seed-5/PTW_alpha--3_names-a-2_opts-depth-4") /\
  contains (lit "txt") (path_ext (lit "coin_1/seed-5/PTW_alpha--3_names-a-2_opts-depth-4")) = false.
Proof. exact structure_example. Qed.
