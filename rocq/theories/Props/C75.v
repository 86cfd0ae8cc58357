(** C75: logs written by LogWriter come back through LogReader; safe mode keeps every file. *)
From Verif Require Import Model.LogFiles Spec.LogFilesSpec Proofs.LogDataFacts Proofs.LogSave Proofs.LogEx Proofs.LogFilesFacts Proofs.LogFilesEx.
Open Scope Z_scope.

(** Comments, headers and rows come back; the rows one by one, each under its headers. After the last
    one, ValueError. *)
Theorem C75_round_trip : forall uspace uninumeric fs filepath base safe comments headers rows a ops,
  writable fs (target filepath base) safe -> log_data uspace uninumeric filepath comments headers rows ->
  writes comments headers rows a ops ->
  exists fs1 w fs2, log_writer fs filepath base safe a = (fs1, Ok w) /\ wrun fs1 w ops = (fs2, w, Ok tt) /\
  exists r0 r1 r2, log_reader fs2 filepath base = Ok r0 /\ get_headers uspace uninumeric r0 = (r1, Some headers) /\
    r_comments r1 = map (fun c => 32 :: c ++ [10]) (filepath :: comments) /\ r_comment_rows r1 = S (length comments) /\
    iterate uspace (length rows) r1 = (r2, Ok (map (fun row => combine (map Some headers) row) rows)) /\
    snd (reader_iter uspace r2) = Err ValueError.
Proof. exact round_trip. Qed.
Print Assumptions C75_round_trip.

Example C75_round_trip_ex : log_data ascii_only no_uni log_path [lit "a note"] log_heads log_rows /\
  forall safe, writable [(lit "other", lit "x")] log_path safe.
Proof. exact (conj ex_log_data ex_writable). Qed.

(** Any log, however it was made. If the first header begins with a digit there are no headers, and
    the line of headers is the first row. *)
Theorem C75_read : forall uspace uninumeric (fs : filesys) filepath base (cl rl : list pystr) (hl : pystr) headers rows,
  gd_get streq fs (target filepath base) = Some (concat (cl ++ hl :: rl)) -> Forall is_line (cl ++ hl :: rl) ->
  Forall (fun l => exists l', l = 35 :: l') cl -> (forall l', hl <> 35 :: l') ->
  reads uspace headers hl -> Forall2 (reads uspace) rows rl ->
  exists r0, log_reader fs filepath base = Ok r0 /\
    ((forall c s, hl = c :: s -> isnumeric uninumeric [c] = false) ->
     exists r1, get_headers uspace uninumeric r0 = (r1, Some headers) /\ r_comments r1 = map (skipn 1) cl /\ r_comment_rows r1 = length cl /\
     (Forall (fun row => length row = length headers) rows ->
      exists r2, iterate uspace (length rows) r1 = (r2, Ok (map (fun row => combine (map Some headers) row) rows)) /\
        (headers <> [] -> snd (reader_iter uspace r2) = Err ValueError))) /\
    ((exists c s, hl = c :: s /\ isnumeric uninumeric [c] = true) ->
     exists r1, get_headers uspace uninumeric r0 = (r1, None) /\ r_comments r1 = map (skipn 1) cl /\
      snd (reader_iter uspace r1) = Ok [map (fun x => (None, x)) headers]).
Proof. exact read_any. Qed.
Print Assumptions C75_read.

(** What is in the file after any operations on an open log. *)
Theorem C75_text : forall fs filepath base safe a headers ops,
  writable fs (target filepath base) safe -> names a headers -> Forall (fits (length headers)) ops ->
  exists fs1 w fs2, log_writer fs filepath base safe a = (fs1, Ok w) /\ wrun fs1 w ops = (fs2, w, Ok tt) /\
    gd_get streq fs2 (target filepath base) = Some (first_text filepath headers ++ concat (map (op_text filepath) ops)).
Proof. exact written. Qed.
Print Assumptions C75_text.

(** The file is a log for the functions of C74. *)
Theorem C75_log_file : forall uspace uninumeric fs filepath base safe comments headers rows a ops,
  writable fs (target filepath base) safe -> log_data uspace uninumeric filepath comments headers rows ->
  writes comments headers rows a ops ->
  exists fs1 w fs2 text c0 cs, log_writer fs filepath base safe a = (fs1, Ok w) /\ wrun fs1 w ops = (fs2, w, Ok tt) /\
    gd_get streq fs2 (target filepath base) = Some text /\ log_file uspace text (c0 :: cs) headers rows /\
    trims uspace filepath c0 /\ Forall2 (trims uspace) comments cs.
Proof. exact is_log. Qed.
Print Assumptions C75_log_file.

(** In safe mode no file that is there is ever changed, whatever is done and whether it fails or not. *)
Theorem C75_safe : forall fs filepath base a ops q t,
  gd_get streq fs q = Some t -> gd_get streq (session fs filepath base true a ops) q = Some t.
Proof. exact session_safe. Qed.
Print Assumptions C75_safe.

(** In any mode no other file is changed. *)
Theorem C75_frame : forall fs filepath base safe a ops q,
  q <> target filepath base -> gd_get streq (session fs filepath base safe a ops) q = gd_get streq fs q.
Proof. exact session_frame. Qed.
Print Assumptions C75_frame.

(** An open log only grows. *)
Theorem C75_grows : forall ops fs w old,
  gd_get streq fs (w_fullpath w) = Some old ->
  exists more, gd_get streq (fst (fst (wrun fs w ops))) (w_fullpath w) = Some (old ++ more).
Proof. exact run_grows. Qed.
Print Assumptions C75_grows.

(** A closed log does not change; writing to it raises ValueError. *)
Theorem C75_closed : forall fs w,
  (forall ops, exists w' r, wrun fs (close w) ops = (fs, w', r)) /\
  (forall s, w_fp w <> None -> write fs (close w) s = (fs, Err ValueError)).
Proof. exact (fun fs w => conj (closed fs w) (closed_write fs w)). Qed.
Print Assumptions C75_closed.

(** The headers of a log without reading the rows: all of them, or those asked for, in order. *)
Theorem C75_check_headers : forall uspace fs p text comments headers rows,
  gd_get streq fs p = Some text -> log_file uspace text comments headers rows ->
  check_headers uspace fs p None = Ok headers /\
  forall needed b, needed <> [] -> (forall h, b h = true <-> asked needed h) ->
    check_headers uspace fs p (Some needed) = Ok (filter b headers).
Proof. exact check_ok. Qed.
Print Assumptions C75_check_headers.

(** A log with comments but no headers yet raises IndexError; an empty file has no headers. *)
Theorem C75_check_headers_refuted : forall uspace (fs : filesys) p text (cl : list pystr),
  gd_get streq fs p = Some text -> text = concat cl -> Forall is_line cl -> Forall (fun l => exists l', l = 35 :: l') cl ->
  forall sub, check_headers uspace fs p sub = match cl with [] => Ok [] | _ => Err IndexError end.
Proof. exact check_comments. Qed.
Print Assumptions C75_check_headers_refuted.

(** A loop over a reader sees one row, not all of them. *)
Theorem C75_iteration_refuted : forall uspace r rows, snd (reader_iter uspace r) = Ok rows -> length rows = 1%nat.
Proof. exact one_row. Qed.
Print Assumptions C75_iteration_refuted.

(** A path without a directory cannot be opened. *)
Theorem C75_any_path_refuted : forall fs filepath base safe a,
  ~ In 47 filepath -> (base = None \/ base = Some []) -> log_writer fs filepath base safe a = (fs, Err OSError).
Proof. exact no_directory. Qed.
Print Assumptions C75_any_path_refuted.

(** write_log never writes data: it always fails, and leaves a file with one comment. *)
Theorem C75_write_log_refuted : forall to_csv fs p base safe,
  (exists e, snd (write_log to_csv fs p base safe) = Err e) /\
  (forall t, safe = true -> gd_get streq fs (target p base) = Some t ->
     gd_get streq (fst (write_log to_csv fs p base safe)) (target p base) = Some t) /\
  (writable fs (target p base) safe -> exists fs', write_log to_csv fs p base safe = (fs', Err AttributeError) /\
     gd_get streq fs' (target p base) = Some ([35; 32] ++ p ++ [10])).
Proof. exact write_log_fails. Qed.
Print Assumptions C75_write_log_refuted.

(** write_list of a string writes its letters. *)
Theorem C75_write_list_refuted : forall fs w s old,
  w_fp w = Some true -> gd_get streq fs (w_fullpath w) = Some old -> s <> [] ->
  exists fs', write_list_str fs w s = (fs', Ok tt) /\
    gd_get streq fs' (w_fullpath w) = Some (old ++ line_of (map (fun c => [c]) s)).
Proof. exact string_letters. Qed.
Print Assumptions C75_write_list_refuted.

(** What [with] binds is None when the file is there in safe mode. *)
Theorem C75_with_refuted : forall fs filepath base a t,
  writable fs (target filepath base) false -> gd_get streq fs (target filepath base) = Some t ->
  exists w, log_writer fs filepath base true a = (fs, Ok w) /\ enter w = TNone.
Proof. exact with_existing. Qed.
Print Assumptions C75_with_refuted.

(** A data frame written under its headers cannot be read back, unless it has two columns. *)
Theorem C75_frame_refuted : forall uspace uninumeric fs filepath base safe headers csv,
  writable fs (target filepath base) safe -> log_data uspace uninumeric filepath [] headers [] -> wordy uspace filepath ->
  length headers <> 2%nat -> (exists lines : list pystr, csv = concat lines /\ Forall is_line lines) ->
  exists fs1 w fs2, log_writer fs filepath base safe (HList headers) = (fs1, Ok w) /\
    wrun fs1 w [WFrame (length headers) csv] = (fs2, w, Ok tt) /\
  exists r0 r1, log_reader fs2 filepath base = Ok r0 /\ get_headers uspace uninumeric r0 = (r1, Some headers) /\
    snd (reader_iter uspace r1) = Err ValueError.
Proof. exact frame_row. Qed.
Print Assumptions C75_frame_refuted.

Example C75_frame_refuted_ex : log_data ascii_only no_uni (lit "l.txt") [] [lit "a"; lit "b"; lit "c"] [] /\ wordy ascii_only (lit "l.txt") /\
  length [lit "a"; lit "b"; lit "c"] <> 2%nat.
Proof. exact frame_ex. Qed.

(** A whole session. *)
Example C75_ex :
  let w := Writer (lit "run 1.txt") log_path [] true (Some true) in
  writable [(lit "other", lit "x")] (target (lit "run 1.txt") (Some (lit "logs"))) true /\
  writes [lit "a note"] log_heads log_rows HNone
    ([WComment (lit "a note")] ++ WList log_heads :: map WList log_rows) /\
  exists fs1 fs2, log_writer [(lit "other", lit "x")] (lit "run 1.txt") (Some (lit "logs")) true HNone = (fs1, Ok w) /\
    wrun fs1 w ([WComment (lit "a note")] ++ WList log_heads :: map WList log_rows) = (fs2, w, Ok tt) /\
    fs2 = [(lit "other", lit "x");
           (log_path, lit "# run 1.txt" ++ [10] ++ lit "# a note" ++ [10] ++ lit "t loss-x" ++ [10] ++ lit "0 1.5" ++ [10] ++ lit "1 a" ++ [10])] /\
    check_headers ascii_only fs2 log_path (Some [lit "loss"]) = Ok [lit "loss-x"] /\
    exists r, log_reader fs2 (lit "run 1.txt") (Some (lit "logs")) = Ok r /\
      snd (get_headers ascii_only no_uni r) = Some log_heads /\
      snd (iterate ascii_only 2 (fst (get_headers ascii_only no_uni r))) =
        Ok [[(Some (lit "t"), lit "0"); (Some (lit "loss-x"), lit "1.5")]; [(Some (lit "t"), lit "1"); (Some (lit "loss-x"), lit "a")]].
Proof. exact session_ex. Qed.
