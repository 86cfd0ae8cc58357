(** C74: logs written by save_log_data come back through get_log_data. *)
From Verif Require Import Model.LogData Spec.LogSpec Proofs.LogDataFacts Proofs.LogSave Proofs.LogEx.
Open Scope Z_scope.

(** Saving succeeds, and the columns asked for come back in that order: as numbers if all texts are
    numbers, else as texts. If a single column is asked for it comes back alone, or ValueError is
    raised. The comments are the path and the notes. *)
Theorem C74_round_trip : forall uspace (V : Type) (str : V -> pystr) (F : Type) (float_of : pystr -> option F) gunzip
    fs p data notes n sub keep,
  savable uspace str p data notes n -> p <> [] -> contains (lit "gz") p = false ->
  no_clash (map fst data) -> ~ In (lit "comments") (map fst data) ->
  (forall l, sub = Some l -> NoDup l /\ incl l (map fst data)) ->
  exists fs', save_log_data uspace str fs p data notes = (fs', Ok p) /\
  (length (wanted sub data) <> 1%nat -> exists d, get_log_data uspace float_of gunzip fs' p sub keep = Ok (LDict d) /\
    map fst d = (if keep then [lit "comments"] else []) ++ wanted sub data /\
    (keep = true -> exists c0 cs, gd_get streq d (lit "comments") = Some (CText (c0 :: cs)) /\
      trims uspace p c0 /\ Forall2 (note_back uspace) notes cs) /\
    forall k col, In k (wanted sub data) -> In (k, col) data ->
      exists c, gd_get streq d k = Some c /\ reads_column float_of (map str (firstn n col)) c) /\
  (forall k col, wanted sub data = [k] -> In (k, col) data ->
    let texts := map str (firstn n col) in
    (forall l, Forall2 (fun t f => float_of t = Some f) texts l ->
      get_log_data uspace float_of gunzip fs' p sub keep = Ok (LArray l)) /\
    ((exists t, In t texts /\ float_of t = None) ->
      get_log_data uspace float_of gunzip fs' p sub keep = Err ValueError)).
Proof. exact round_trip. Qed.
Print Assumptions C74_round_trip.

(** Any file of that form, however it was made: column k is the i-th word of the rows, where k is the
    i-th header. *)
Theorem C74_columns : forall uspace (F : Type) (float_of : pystr -> option F) gunzip
    fs p text comments headers rows l keep,
  gd_get streq fs p = Some text -> contains (lit "gz") p = false -> p <> [] ->
  log_file uspace text comments headers rows -> NoDup headers -> no_clash headers ->
  Forall (fun r => (length headers <= length r)%nat) rows ->
  NoDup l -> incl l headers -> ~ In (lit "comments") l ->
  (length l <> 1%nat -> exists d, get_log_data uspace float_of gunzip fs p (Some l) keep = Ok (LDict d) /\
    map fst d = (if keep then [lit "comments"] else []) ++ l /\
    (keep = true -> gd_get streq d (lit "comments") = Some (CText comments)) /\
    forall k i, In k l -> nth_error headers i = Some k ->
      exists c, gd_get streq d k = Some c /\ reads_column float_of (map (fun r => nth i r []) rows) c) /\
  (forall k i, l = [k] -> nth_error headers i = Some k ->
    let texts := map (fun r => nth i r []) rows in
    (forall fs', Forall2 (fun t f => float_of t = Some f) texts fs' ->
      get_log_data uspace float_of gunzip fs p (Some l) keep = Ok (LArray fs')) /\
    ((exists t, In t texts /\ float_of t = None) ->
      get_log_data uspace float_of gunzip fs p (Some l) keep = Err ValueError)).
Proof. exact columns. Qed.
Print Assumptions C74_columns.

(** The headers of such a file and their positions. *)
Theorem C74_headers : forall uspace gunzip fs p text comments headers rows,
  gd_get streq fs p = Some text -> contains (lit "gz") p = false -> log_file uspace text comments headers rows ->
  (forall sort_, get_header_list uspace gunzip fs p sort_ = Ok (Some (if sort_ then sort strle headers else headers))) /\
  (NoDup headers -> exists d, get_header_indices uspace gunzip fs p = Ok d /\
    forall k i, gd_get streq d k = Some i <-> nth_error headers i = Some k).
Proof. exact file_headers. Qed.
Print Assumptions C74_headers.

Theorem C74_saved_headers : forall uspace (V : Type) (str : V -> pystr) gunzip fs p data notes n sort_,
  savable uspace str p data notes n -> contains (lit "gz") p = false ->
  exists fs', save_log_data uspace str fs p data notes = (fs', Ok p) /\
    get_header_list uspace gunzip fs' p sort_ = Ok (Some (sort strle (map fst data))).
Proof. exact saved_headers. Qed.
Print Assumptions C74_saved_headers.

(** The number of data lines is the number of rows. *)
Theorem C74_lines : forall uspace (V : Type) (str : V -> pystr) (F : Type) (float_of : pystr -> option F) fs p data notes n,
  savable uspace str p data notes n -> p <> [] ->
  (forall s, float_of (35 :: s) = None) -> (exists h, In h (map fst data) /\ float_of h = None) ->
  Forall (fun kc => Forall (fun v => exists f, float_of (str v) = Some f) (firstn n (snd kc))) data ->
  exists fs', save_log_data uspace str fs p data notes = (fs', Ok p) /\
    num_data_lines uspace float_of fs' p = Ok (Z.of_nat n).
Proof. exact saved_lines_. Qed.
Print Assumptions C74_lines.

(** No other file is touched, whether saving succeeds or not. *)
Theorem C74_frame : forall uspace (V : Type) (str : V -> pystr) fs p data notes q, q <> p ->
  gd_get streq (fst (save_log_data uspace str fs p data notes)) q = gd_get streq fs q.
Proof. exact other_files. Qed.
Print Assumptions C74_frame.

(** The leading comments of a file and where the rest begins. *)
Theorem C74_skip_comments : forall cl,
  Forall (fun l => exists l', l = 35 :: l') cl ->
  (forall l rest, l <> [] -> (forall l', l <> 35 :: l') -> skip_comments (cl ++ l :: rest) = Ok (cl, l :: rest)) /\
  skip_comments cl = Err GeneralException.
Proof. exact skip_comments_both. Qed.
Print Assumptions C74_skip_comments.

(** A line of words, value by value. *)
Theorem C74_formatted : forall uspace (F : Type) (float_of : pystr -> option F) int_of ws,
  ws <> [] -> Forall (wordy uspace) ws ->
  exists l, get_formatted_data uspace float_of int_of (join [32] ws ++ [10]) None = Ok l /\
    Forall2 (fun w d => match d with
      | DFloat f => In 46 w /\ float_of w = Some f
      | DInt m => ~ In 46 w /\ int_of w = Some m
      | DStr s => s = w /\ (In 46 w -> float_of w = None) /\ (~ In 46 w -> int_of w = None) end) ws l.
Proof. exact formatted_words. Qed.
Print Assumptions C74_formatted.

(** Saving is not all or nothing: a column shorter than the first one raises IndexError when the old
    file is already gone. *)
Theorem C74_atomic_refuted : forall uspace (V : Type) (str : V -> pystr) fs p data notes k0 col0 k col,
  NoDup (map fst data) -> Forall (fun s => s <> []) notes ->
  least k0 (map fst data) -> In (k0, col0) data -> In (k, col) data -> (length col < length col0)%nat ->
  exists rest, save_log_data uspace str fs p data notes =
    (gd_set streq fs p (lit "# " ++ p ++ [10] ++ rest), Err IndexError).
Proof. exact short_column_. Qed.
Print Assumptions C74_atomic_refuted.

(** A path with "gz" in it that is not a gzipped file's: what was saved cannot be read. *)
Theorem C74_any_path_refuted : forall uspace (V : Type) (str : V -> pystr) (F : Type) (float_of : pystr -> option F) gunzip
    fs p data notes n sub keep,
  savable uspace str p data notes n -> p <> [] ->
  contains (lit "gz") p = true -> is_zip p = false -> (forall t, gunzip (35 :: t) = None) ->
  exists fs', save_log_data uspace str fs p data notes = (fs', Ok p) /\
    get_log_data uspace float_of gunzip fs' p sub keep = Err OSError.
Proof. exact gz_path. Qed.
Print Assumptions C74_any_path_refuted.

Example C74_any_path_ex : let p := lit "gz/log.txt" in
  savable ascii_only (fun s : pystr => s) p ex_data ex_notes 2 /\ contains (lit "gz") p = true /\ is_zip p = false /\
  (forall t, no_gz (35 :: t) = None).
Proof. exact gz_example. Qed.

(** get_snippets always raises an exception and writes nothing. *)
Theorem C74_snippets_refuted : forall uspace (F : Type) (float_of : pystr -> option F) gunzip float_str
    fs infile outfile start len headers,
  exists e, get_snippets uspace float_of gunzip float_str fs infile outfile start len headers = (fs, Err e).
Proof. exact snippets. Qed.
Print Assumptions C74_snippets_refuted.

(** simplify_logs never changes a file; without an exception it does nothing. *)
Theorem C74_simplify_refuted : forall uspace (F : Type) (float_of : pystr -> option F) gunzip float_str fs p headers,
  fst (simplify_log uspace float_of gunzip float_str fs p headers) = fs /\
  (snd (simplify_log uspace float_of gunzip float_str fs p headers) = Ok tt ->
   exists hs, get_header_list uspace gunzip fs p false = Ok (Some hs) /\ length hs = length headers).
Proof. exact simplify. Qed.
Print Assumptions C74_simplify_refuted.

(** The conditions of the round trip are needed: a longer column is cut; of two headers that differ
    in a dash one is lost; a note loses a letter; a column named "comments" is lost. *)
Theorem C74_any_data_refuted :
  (exists fs' d, save_ [] (lit "l") [(lit "a", [lit "1"]); (lit "b", [lit "1"; lit "2"])] [] = (fs', Ok (lit "l")) /\
    get_ fs' (lit "l") None false = Ok (LDict d) /\ gd_get streq d (lit "b") = Some (CNum [1])) /\
  (exists fs' d, save_ [] (lit "l") [(lit "a-b", [lit "1"]); (lit "ab", [lit "2"])] [] = (fs', Ok (lit "l")) /\
    get_ fs' (lit "l") None false = Ok (LDict d) /\ gd_get streq d (lit "ab") = Some (CNum [1])) /\
  (exists fs' d, save_ [] (lit "l") [(lit "a", [lit "1"]); (lit "b", [lit "1"])] [lit "#second"] = (fs', Ok (lit "l")) /\
    get_ fs' (lit "l") None true = Ok (LDict d) /\ gd_get streq d (lit "comments") = Some (CText [lit "l"; lit "econd"])) /\
  (exists fs' d, save_ [] (lit "l") [(lit "a", [lit "1"]); (lit "b", [lit "1"]); (lit "comments", [lit "1"])] [] = (fs', Ok (lit "l")) /\
    get_ fs' (lit "l") None false = Ok (LDict d) /\ gd_get streq d (lit "comments") = None).
Proof. exact (conj longer_cut (conj clash (conj note_letter comments_column))). Qed.
Print Assumptions C74_any_data_refuted.

(** Blank lines: before the headers they make the headers data; at the end they raise IndexError, and
    stop the count of data lines. An empty file raises UnboundLocalError. *)
Theorem C74_blank_refuted :
  (let fs := [(lit "l", [10] ++ lit "a b" ++ [10] ++ lit "1 2" ++ [10])] in
   get_header_list ascii_only no_gz fs (lit "l") false = Ok (Some [lit "a"; lit "b"]) /\
   exists d, get_ fs (lit "l") None false = Ok (LDict d) /\ gd_get streq d (lit "a") = Some (CText [lit "a"; lit "1"])) /\
  (let fs := [(lit "l", lit "a b" ++ [10] ++ lit "1 2" ++ [10; 10])] in
   get_ fs (lit "l") None false = Err IndexError /\ num_data_lines ascii_only parse_nat fs (lit "l") = Ok 1) /\
  (forall sub keep, get_ [(lit "l", [])] (lit "l") sub keep = Err NameError).
Proof. exact (conj blank_before (conj blank_after empty_file)). Qed.
Print Assumptions C74_blank_refuted.

(** Two columns, two notes: everything above holds of them. *)
Example C74_ex : let p := lit "log.txt" in
  savable ascii_only (fun s : pystr => s) p ex_data ex_notes 2 /\ no_clash (map fst ex_data) /\
  contains (lit "gz") p = false /\ ~ In (lit "comments") (map fst ex_data) /\
  exists fs', save_ [] p ex_data ex_notes = (fs', Ok p) /\
    get_ fs' p None true = Ok (LDict [(lit "comments", CText [lit "log.txt"; lit "run 1"; lit "second"]);
                                     (lit "a", CNum [1; 20]); (lit "b", CText [lit "3"; lit "x"])]) /\
    get_ fs' p (Some [lit "a"]) false = Ok (LArray [1; 20]).
Proof. exact example. Qed.
