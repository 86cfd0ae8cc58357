(** C81: Structures are selected by their values, and rebuilt from their records. *)
From Verif Require Import Model.Records Spec.RecordsSpec Proofs.StructuresNeg Proofs.NestedNeg Proofs.RecordsFacts Proofs.RecordsBuild Proofs.RecordsEx.
Open Scope Z_scope.

(** [matches] never fails, and answers yes exactly if all values asked for are there, as values or as texts with their names,
    and none of the texts to be left out is. *)
Theorem C81_matches_partial : forall peq base inst, compares peq ->
  (forall f g, In f base -> In g base -> f_name f = f_name g -> f = g) ->
  forall drop_vals assert_vals, answerable base inst drop_vals -> answerable base inst assert_vals ->
  exists b, matches peq base inst drop_vals assert_vals = Ok b /\
    (b = true <-> (forall k x l, In (k, x) assert_vals -> given x l -> accepted peq base inst k l) /\
                  (forall k x l, In (k, x) drop_vals -> given x l -> ~ rejected base inst k l)).
Proof. exact matches_ok. Qed.
Print Assumptions C81_matches_partial.

Example C81_matches_ex : compares simple_eq /\
  (forall f g, In f run_fields -> In g run_fields -> f_name f = f_name g -> f = g) /\
  answerable run_fields my_run [(lit "seed", VList [VInt 4; VInt 5]); (lit "exp", VStr (lit "coin"))] /\
  matches simple_eq run_fields my_run [] [(lit "seed", VList [VInt 4; VInt 5]); (lit "exp", VStr (lit "coin"))] = Ok true /\
  matches simple_eq run_fields my_run [] [(lit "seed", VStr (lit "seed-5"))] = Ok true /\
  matches simple_eq run_fields my_run [(lit "seed", VStr (lit "seed-5"))] [] = Ok false /\
  matches simple_eq run_fields my_run [] [(lit "other", VInt 5)] = Ok false.
Proof. exact (conj simple_compares (conj run_unique selected)). Qed.

(** [matches_param] asks for the text without the name, and for nothing else. *)
Theorem C81_param_partial : forall peq inst, compares peq -> forall f v u drop_vals assert_vals,
  has inst (f_name f) v -> value_text v u ->
  (forall k x, In (k, x) drop_vals \/ In (k, x) assert_vals -> exists l, given x l) ->
  exists b, matches_param peq f inst drop_vals assert_vals = Ok b /\
    (b = true <-> (forall x l, gd_get streq assert_vals (f_name f) = Some x -> given x l -> In (VStr u) l) /\
                  (forall x l, gd_get streq drop_vals (f_name f) = Some x -> given x l -> ~ In (VStr u) l)).
Proof. exact param_ok. Qed.
Print Assumptions C81_param_partial.

Example C81_param_ex : has my_run (lit "seed") (VInt 5) /\
  matches_param simple_eq (named "seed" CInt) my_run [] [(lit "seed", VStr (lit "5"))] = Ok true /\
  matches_param simple_eq (named "seed" CInt) my_run [] [(lit "seed", VInt 5)] = Ok false /\
  matches_param simple_eq (named "seed" CInt) my_run [(lit "seed", VStr (lit "5"))] [] = Ok false.
Proof. split; [left|repeat apply conj]; vm_compute; reflexivity. Qed.

(** Values that are no texts are asked for by [matches], but leave nothing out. *)
Theorem C81_drop_refuted : forall peq base inst, compares peq ->
  (forall f g, In f base -> In g base -> f_name f = f_name g -> f = g) -> forall drop_vals, answerable base inst drop_vals ->
  (forall k x l, In (k, x) drop_vals -> given x l -> forall t, ~ In (VStr t) l) ->
  matches peq base inst drop_vals [] = Ok true.
Proof. exact values_drop_nothing. Qed.
Print Assumptions C81_drop_refuted.

Example C81_drop_ex : matches simple_eq run_fields my_run [] [(lit "seed", VInt 5)] = Ok true /\
  matches simple_eq run_fields my_run [(lit "seed", VInt 5)] [] = Ok true /\
  matches simple_eq run_fields my_run [(lit "seed", VStr (lit "5"))] [] = Ok true.
Proof. exact own_value. Qed.

(** A list is not found by itself, only in a list of lists. *)
Theorem C81_list_refuted : matches simple_eq run_fields my_run [] [(lit "cuts", VList [VInt 1; VInt 2])] = Ok false /\
  matches simple_eq run_fields my_run [] [(lit "cuts", VList [VList [VInt 1; VInt 2]])] = Ok true.
Proof. exact own_list. Qed.
Print Assumptions C81_list_refuted.

(** The items of an instance are its fields in order, and the constructor makes from them an instance with the same fields. *)
Theorem C81_items_partial : forall literal_eval uni uninumeric other_int is_float to_float to_str other_true, floats is_float to_float ->
  forall fs inherited kw a r, (forall f, In f fs -> sane_nargs f) -> NoDup (map f_name fs) ->
  (forall n, In n inherited -> ~ In n (map f_name fs)) ->
  construct literal_eval uni uninumeric other_int is_float to_float to_str other_true fs inherited kw = Ok a -> items fs a = Ok r ->
  map fst r = map f_name fs /\
  exists b, construct literal_eval uni uninumeric other_int is_float to_float to_str other_true fs inherited r = Ok b /\
    forall f v, In f fs -> has b (f_name f) v <-> has a (f_name f) v.
Proof. exact items_rebuilt. Qed.
Print Assumptions C81_items_partial.

(** So does the record, for the fields that are not transient. *)
Theorem C81_record_partial : forall literal_eval uni uninumeric other_int is_float to_float to_str other_true, floats is_float to_float ->
  forall fs inherited kw a base r, (forall f, In f fs -> sane_nargs f) -> NoDup (map f_name fs) ->
  (forall n, In n inherited -> ~ In n (map f_name fs)) ->
  (forall f, In f fs -> f_transient f = true -> f_default f = None /\ f_required f = false) ->
  construct literal_eval uni uninumeric other_int is_float to_float to_str other_true fs inherited kw = Ok a ->
  base_params (map MField fs) = Ok base -> get_flat_record base false a = Ok r ->
  (forall n, gd_get streq r n <> None <-> exists f, In f fs /\ shown f /\ f_name f = n) /\
  exists b, construct literal_eval uni uninumeric other_int is_float to_float to_str other_true fs inherited r = Ok b /\
    forall f v, In f fs -> shown f -> has b (f_name f) v <-> has a (f_name f) v.
Proof. exact record_rebuilt. Qed.
Print Assumptions C81_record_partial.

Example C81_record_ex : exists kw a r, construct simple_eval (fun _ => None) (fun _ => false) (fun _ => None) (fun _ => false) (fun _ => None)
    (fun _ => []) (fun _ => false) run_fields [lit "base_dir"] kw = Ok a /\ items run_fields a = Ok r /\ floats (fun _ => false) (fun _ => None) /\
  (forall f, In f run_fields -> sane_nargs f) /\ NoDup (map f_name run_fields) /\
  (forall n, In n [lit "base_dir"] -> ~ In n (map f_name run_fields)).
Proof. exact rebuilt_ex. Qed.

(** A record has an entry for each field that is not transient, the value of the field, or the text of a collection. *)
Theorem C81_entries : forall base coll inst r, NoDup (map f_name base) -> get_flat_record base coll inst = Ok r ->
  forall n w, gd_get streq r n = Some w <-> exists f v, In f base /\ f_name f = n /\ has inst n v /\ recorded coll f v w.
Proof. exact record_values. Qed.
Print Assumptions C81_entries.

Example C81_entries_ex : NoDup (map f_name run_fields) /\
  get_flat_record run_fields true my_run = Ok [(lit "exp", VStr (lit "coin")); (lit "seed", VInt 5); (lit "cuts", VStr (lit "1-2"))] /\
  get_flat_record run_fields false my_run = Ok [(lit "exp", VStr (lit "coin")); (lit "seed", VInt 5); (lit "cuts", VList [VInt 1; VInt 2])].
Proof. exact texts_ex. Qed.

(** A field without a value: neither record nor items. *)
Theorem C81_unset_refuted : forall base coll inst f, In f base -> lacks inst (f_name f) ->
  (forall r, get_flat_record base coll inst <> Ok r) /\ (forall r, items base inst <> Ok r).
Proof. exact (fun base coll inst f H L => conj (record_lacks base coll inst f H L) (items_lack base inst f H L)). Qed.
Print Assumptions C81_unset_refuted.

Example C81_unset_ex :
  let make := construct simple_eval (fun _ => None) (fun _ => false) (fun _ => None) (fun _ => false) (fun _ => None) (fun _ => []) (fun _ => false) in
  exists a, make run_fields [lit "base_dir"] [(lit "exp", VStr (lit "coin")); (lit "base_dir", VStr (lit "/data"))] = Ok a /\
    lacks a (lit "seed") /\ get_flat_record run_fields false a = Err AttributeError /\ items run_fields a = Err AttributeError.
Proof. exact unset_ex. Qed.

(** A class with another class in it has a record only if the outer instance has attributes with the names of the inner fields. *)
Theorem C81_nested_refuted : forall members base coll a n req k p t ms inh f, base_params members = Ok base ->
  In (MStruct n req k p t (Some (ms, inh))) members -> In (MField f) ms -> f_transient f = false ->
  gd_get streq a (f_name f) = None -> forall r, get_flat_record base coll (own_attrs a) <> Ok r.
Proof. exact nested_record. Qed.
Print Assumptions C81_nested_refuted.

Example C81_nested_ex : exists base, base_params exp_class = Ok base /\
  exists n req k p t ms inh f, In (MStruct n req k p t (Some (ms, inh))) exp_class /\ In (MField f) ms /\ f_transient f = false /\
    gd_get streq my_exp (f_name f) = None /\ get_flat_record base false (own_attrs my_exp) = Err AttributeError.
Proof. exact nested_ex. Qed.

(** The directory is not in the record. *)
Theorem C81_directory_refuted :
  let make := construct simple_eval (fun _ => None) (fun _ => false) (fun _ => None) (fun _ => false) (fun _ => None) (fun _ => []) (fun _ => false) in
  exists a r b, make run_fields [lit "base_dir"]
      [(lit "exp", VStr (lit "coin")); (lit "seed", VInt 5); (lit "cuts", VList [VInt 1]); (lit "base_dir", VStr (lit "/data"))] = Ok a /\
    get_flat_record run_fields false a = Ok r /\ make run_fields [lit "base_dir"] r = Ok b /\
    has a (lit "base_dir") (VStr (lit "/data")) /\ gd_get streq b (lit "base_dir") <> gd_get streq a (lit "base_dir").
Proof. exact moved. Qed.
Print Assumptions C81_directory_refuted.

(** With a negative nargs the values become fewer each time. *)
Theorem C81_nargs_refuted : let f := Field (lit "xs") CAny false true false false None None None (Some (NNum (-1))) in
  let make := construct simple_eval (fun _ => None) (fun _ => false) (fun _ => None) (fun _ => false) (fun _ => None) (fun _ => []) (fun _ => false) in
  make [f] [] [(lit "xs", VList [VInt 1; VInt 2; VInt 3])] = Ok [attr "xs" (VList [VInt 1; VInt 2])] /\
  items [f] [attr "xs" (VList [VInt 1; VInt 2])] = Ok [(lit "xs", VList [VInt 1; VInt 2])] /\
  make [f] [] [(lit "xs", VList [VInt 1; VInt 2])] = Ok [attr "xs" (VList [VInt 1])].
Proof. exact negative_nargs. Qed.
Print Assumptions C81_nargs_refuted.
