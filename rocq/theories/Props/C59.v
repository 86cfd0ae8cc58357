(** C59: headers and filters of FileEnvironment. *)
From Verif Require Import Model.FileEnvironment Model.FileFilters Spec.FileEnvironment Spec.FileFilters
  Proofs.FileEnvironmentFacts Proofs.FileFiltersFacts.
Open Scope Z_scope.

(** The headers kept are those of the file, in order, that are requested as such or by their part
    before the first dash; the mapping has the latter. *)
Theorem C59_headers : forall file_headers headers,
  let '(kept, mapping) := set_headers file_headers headers in
  (exists f, kept = filter f file_headers /\
     forall h, f h = true <-> In h headers \/ exists p, first_part h p /\ In p headers) /\
  (forall h p, In (h, p) mapping <->
     In h file_headers /\ ~ In h headers /\ first_part h p /\ In p headers).
Proof. exact headers_spec. Qed.
Print Assumptions C59_headers.
Example C59_headers_ex :
  set_headers [lit "emg-0"; lit "emg-1"; lit "labels"; lit "emg-1-x"; lit "time"]
    [lit "emg"; lit "emg-1"; lit "time"]
  = ([lit "emg-0"; lit "emg-1"; lit "emg-1-x"; lit "time"],
     [(lit "emg-0", lit "emg"); (lit "emg-1-x", lit "emg")]).
Proof. reflexivity. Qed.

(** If only the last header given is scaled, every column is processed by the filters requested for
    it, from left to right, and scaled with its own range. *)
Theorem C59_filters_partial : forall (Column Range : Type) (rollmean unitvect : Column -> result Column)
  (scale : Range -> Column -> result Column) ranges kwargs ff l mapping data out,
  (forall h names, In (h, names) kwargs -> In (lit "scaled") names -> last_header kwargs = Some h) ->
  get_file_filters kwargs None = Ok (ff, l) ->
  filter_data_block rollmean unitvect scale ranges ff l mapping data = Ok out ->
  processed_columns rollmean unitvect scale ranges Some kwargs mapping data out.
Proof. exact @own_range. Qed.
Print Assumptions C59_filters_partial.
Example C59_filters_ex :
  let kwargs := [(lit "time", []); (lit "emg", [lit "rollmean"; lit "scaled"])] in
  (forall h names, In (h, names) kwargs -> In (lit "scaled") names -> last_header kwargs = Some h) /\
  exists ff l, get_file_filters kwargs None = Ok (ff, l) /\
    filter_data_block (fun c => Ok (c + 1)) Ok (fun g c => Ok (g * c)) (Some [(lit "emg", 10)]) ff l
      [(lit "emg-0", lit "emg")] [(lit "emg-0", 4); (lit "time", 7)]
    = Ok [(lit "emg-0", 50); (lit "time", 7)].
Proof.
  intros kwargs. split.
  - intros h names [E|[E|[]]]; injection E as <- <-; [intros []|reflexivity].
  - eexists _, _. split; reflexivity.
Qed.

(** In general all columns are scaled with the range of the last header given. *)
Theorem C59_filters_last : forall (Column Range : Type) (rollmean unitvect : Column -> result Column)
  (scale : Range -> Column -> result Column) ranges kwargs ff l mapping data out,
  get_file_filters kwargs None = Ok (ff, l) ->
  (filter_data_block rollmean unitvect scale ranges ff l mapping data = Ok out <->
   processed_columns rollmean unitvect scale ranges (fun _ => last_header kwargs) kwargs mapping data out).
Proof. exact @block_processed. Qed.
Print Assumptions C59_filters_last.

Theorem C59_filters_refuted : forall (Column Range : Type) (rollmean unitvect : Column -> result Column)
  (scale : Range -> Column -> result Column) ranges h1 h2 r g1 g2 c c1, h1 <> h2 -> ranges = Some r ->
  gd_get streq r h1 = Some g1 -> gd_get streq r h2 = Some g2 -> scale g2 c = Ok c1 ->
  exists ff l, get_file_filters [(h1, [lit "scaled"]); (h2, [lit "scaled"])] None = Ok (ff, l) /\
    filter_data_block rollmean unitvect scale ranges ff l [] [(h1, c)] = Ok [(h1, c1)].
Proof. exact @other_range. Qed.
Print Assumptions C59_filters_refuted.

(** Of the documented filters 'return' and 'trace' always raise. *)
Theorem C59_names : forall names, (exists fs, make_filters names = Ok fs) <->
  (forall n, In n names -> n = [] \/ n = lit "rollmean" \/ n = lit "scaled" \/ n = lit "unitvect").
Proof. exact make_errors. Qed.
Print Assumptions C59_names.
