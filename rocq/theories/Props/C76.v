(** C76: jobs.py submits every combination of options, and finds the results in the logs. *)
From Verif Require Import Model.Jobs Spec.JobsSpec Proofs.LogDataFacts Proofs.LogEx Proofs.JobsFacts Proofs.JobsMore Proofs.JobLogs Proofs.JobsEx.
Open Scope Z_scope.

(** One submission for every choice of options, one after the other: command, script and its name. *)
Theorem C76_run : forall uspace qsub js (fs : filesys) kwargs, Forall safe (js_log_name js) -> has_options kwargs ->
  exists sets fs' subs, choices kwargs sets /\ run uspace qsub js fs kwargs = (fs', Ok subs) /\
    history uspace qsub js fs 0 sets subs fs' /\
    length subs = fold_right (fun p n => length (snd p) * n)%nat 1%nat kwargs.
Proof. exact run_. Qed.
Print Assumptions C76_run.

Example C76_run_ex : Forall safe (js_log_name my_jobs) /\ has_options (my_options [lit "calgary"; lit "other"]).
Proof. exact options_ex. Qed.

(** Afterwards the last script of each name is there, no temporary file is, and nothing else has changed. *)
Theorem C76_files : forall uspace qsub js (fs : filesys) kwargs fs' subs, Forall safe (js_log_name js) -> has_options kwargs ->
  run uspace qsub js fs kwargs = (fs', Ok subs) ->
  (forall pre s post, subs = pre ++ s :: post -> (forall s', In s' post -> sub_path s' <> sub_path s) ->
    gd_get streq fs' (sub_path s) = Some (sub_script s)) /\
  (forall s p, In s subs -> sub_cmd s = lit "qsub " ++ p -> gd_get streq fs' p = None) /\
  (forall p, (forall s, In s subs -> p <> sub_path s /\ sub_cmd s <> lit "qsub " ++ p) -> gd_get streq fs' p = gd_get streq fs p).
Proof. exact files_. Qed.
Print Assumptions C76_files.

(** All scripts are kept if only protocols, models and depths vary. *)
Theorem C76_kept : forall uspace qsub js (fs : filesys) kwargs fs' subs,
  Forall safe (js_log_name js) -> has_options kwargs -> plain_options kwargs ->
  Forall (fun p => NoDup (snd p)) kwargs ->
  (forall k vs, In (k, vs) kwargs -> ~ In k [lit "protocol"; lit "model"; lit "depth"] -> (length vs <= 1)%nat) ->
  run uspace qsub js fs kwargs = (fs', Ok subs) ->
  NoDup (map sub_path subs) /\ forall s, In s subs -> gd_get streq fs' (sub_path s) = Some (sub_script s).
Proof. exact kept_. Qed.
Print Assumptions C76_kept.

Example C76_kept_ex : has_options (my_options [lit "calgary"]) /\ plain_options (my_options [lit "calgary"]) /\
  Forall (fun p => NoDup (snd p)) (my_options [lit "calgary"]) /\
  (forall k vs, In (k, vs) (my_options [lit "calgary"]) -> ~ In k [lit "protocol"; lit "model"; lit "depth"] -> (length vs <= 1)%nat).
Proof. exact kept_ex. Qed.

(** So they are if the queue gives each job a number of its own. *)
Theorem C76_numbered : forall uspace qsub js (fs : filesys) kwargs fs' subs,
  Forall safe (js_log_name js) -> has_options kwargs -> plain_options kwargs ->
  (forall i1 i2 c1 c2 id, queue_id uspace qsub js i1 c1 id -> queue_id uspace qsub js i2 c2 id -> i1 = i2) ->
  run uspace qsub js fs kwargs = (fs', Ok subs) ->
  NoDup (map sub_path subs) /\ forall s, In s subs -> gd_get streq fs' (sub_path s) = Some (sub_script s).
Proof. exact numbered_. Qed.
Print Assumptions C76_numbered.

Example C76_numbered_ex : has_options (my_options [lit "calgary"; lit "other"]) /\ plain_options (my_options [lit "calgary"; lit "other"]) /\
  forall i1 i2 c1 c2 id, queue_id ascii_only counting queue_jobs i1 c1 id -> queue_id ascii_only counting queue_jobs i2 c2 id -> i1 = i2.
Proof. exact numbered_ex. Qed.

(** In debug mode, scripts of jobs that differ in the platform only overwrite each other. *)
Theorem C76_kept_refuted : forall uspace qsub, exists fs' s1 s2, run uspace qsub my_jobs [] two_platforms = (fs', Ok [s1; s2]) /\
  sub_path s1 = sub_path s2 /\ sub_script s1 <> sub_script s2 /\ fs' = [(sub_path s2, sub_script s2)].
Proof. exact overwritten. Qed.
Print Assumptions C76_kept_refuted.

(** The directory of the logs: the characters of log_name that are allowed in file names. *)
Theorem C76_log_dir : forall js, exists d, log_dir js = Ok d /\
  (forall c, In c d <-> In c (js_log_name js) /\ safe c) /\ (Forall safe (js_log_name js) -> d = js_log_name js).
Proof. exact log_dir_. Qed.
Print Assumptions C76_log_dir.

(** A path is no good as log_name. *)
Theorem C76_log_dir_refuted : log_dir (JobSet (lit "runs/today") true 20 0) = Ok (lit "runstoday").
Proof. exact slash_lost. Qed.
Print Assumptions C76_log_dir_refuted.

(** ** The logs *)

(** The name of a log tells the job. *)
Theorem C76_params : forall j (rest : pystr), plain_job j -> exists d, pull_params_from_name (job_name j ++ 46 :: rest) = Ok d /\
  map fst d = [lit "filename"; lit "protocol"; lit "model"; lit "depth"] /\
  gd_get streq d (lit "filename") = Some (SText (job_name j ++ 46 :: rest)) /\
  gd_get streq d (lit "protocol") = Some (SText (j_protocol j)) /\
  gd_get streq d (lit "model") = Some (SText (j_model j)) /\
  gd_get streq d (lit "depth") = Some (SText (str_of_int (j_depth j))).
Proof. exact params_. Qed.
Print Assumptions C76_params.

Example C76_params_ex : plain_job a_job.
Proof. exact a_job_plain. Qed.

(** A name with fewer than two dashes. *)
Theorem C76_params_short : forall f a b : pystr, ~ In 45 a -> ~ In 45 b -> f = a \/ f = a ++ 45 :: b ->
  pull_params_from_name f = Err ValueError.
Proof. exact params_short_. Qed.
Print Assumptions C76_params_short.

(** What is found in a log: what the last seven lines tell, the later the better. *)
Theorem C76_stats : forall uspace (fs : filesys) f (lines m : list pystr) l,
  gd_get streq fs (lit "logs/" ++ f) = Some (concat lines) -> Forall is_line lines ->
  final 7 lines (m ++ [l]) -> contains (lit "Starting") l = false -> contains (lit "killed") l = false ->
  exists d, pull_stats_from_file uspace fs f = Ok d /\
    forall k s, gd_get streq d k = Some s <-> exists v, s = SText v /\ last_tells uspace (m ++ [l]) k v.
Proof. exact stats_. Qed.
Print Assumptions C76_stats.

Example C76_stats_ex : final 7 ([lit "Starting run at: today" ++ [10]] ++ z_lines None ++ [end_line]) (z_lines None ++ [end_line]) /\
  Forall is_line ([lit "Starting run at: today" ++ [10]] ++ z_lines None ++ [end_line]) /\
  contains (lit "Starting") end_line = false /\ contains (lit "killed") end_line = false /\
  last_tells ascii_only (z_lines None ++ [end_line]) (lit "Size") (lit "26097").
Proof. exact stats_ex. Qed.

(** A run that has only started. *)
Theorem C76_flaked : forall uspace (fs : filesys) f (lines : list pystr) l,
  gd_get streq fs (lit "logs/" ++ f) = Some (concat (lines ++ [l])) -> Forall is_line (lines ++ [l]) ->
  contains (lit "Starting") l = true -> pull_stats_from_file uspace fs f = Ok [(lit "flaked", STrue)].
Proof. exact flaked_. Qed.
Print Assumptions C76_flaked.

(** A run that was killed, and why. *)
Theorem C76_killed : forall uspace (fs : filesys) f (lines : list pystr) l b v,
  gd_get streq fs (lit "logs/" ++ f) = Some (concat (lines ++ [l])) -> Forall is_line (lines ++ [l]) ->
  contains (lit "Starting") l = false -> contains (lit "killed") l = true -> after_colon l b -> trims uspace b v ->
  pull_stats_from_file uspace fs f = Ok [(lit "killed", SText v)].
Proof. exact killed_. Qed.
Print Assumptions C76_killed.

Example C76_killed_ex : contains (lit "Starting") (lit "Starting run at: now" ++ [10]) = true /\
  contains (lit "Starting") (lit "=>> PBS: job killed: walltime 1233 exceeded limit 1200" ++ [10]) = false /\
  contains (lit "killed") (lit "=>> PBS: job killed: walltime 1233 exceeded limit 1200" ++ [10]) = true /\
  after_colon (lit "=>> PBS: job killed: walltime 1233 exceeded limit 1200" ++ [10]) (lit " walltime 1233 exceeded limit 1200" ++ [10]) /\
  trims ascii_only (lit " walltime 1233 exceeded limit 1200" ++ [10]) (lit "walltime 1233 exceeded limit 1200").
Proof. exact flaked_ex. Qed.

(** An empty log raises IndexError. *)
Theorem C76_no_lines : forall uspace (fs : filesys) f,
  (gd_get streq fs (lit "logs/" ++ f) = Some [] -> pull_stats_from_file uspace fs f = Err IndexError) /\
  (gd_get streq fs (lit "logs/" ++ f) = None -> pull_stats_from_file uspace fs f = Err OSError).
Proof. exact no_lines_. Qed.
Print Assumptions C76_no_lines.

(** All figures of a finished compression are found, if the model has no size. *)
Theorem C76_finished : forall uspace (fs : filesys) f g text,
  finished uspace g None text -> gd_get streq fs (lit "logs/" ++ f) = Some text ->
  exists d, pull_stats_from_file uspace fs f = Ok d /\ gd_get streq d (lit "Ratio") = Some (SText (g_ratio g ++ lit "%")) /\ shown g d /\
    forall k, In k [lit "filename"; lit "protocol"; lit "model"; lit "depth"] -> gd_get streq d k = None.
Proof. exact finished_. Qed.
Print Assumptions C76_finished.

Example C76_finished_ex : forall nodes, finished ascii_only some_figures nodes (log_text nodes).
Proof. exact ex_finished. Qed.

(** If it has one, the ratio is not found. *)
Theorem C76_finished_refuted : forall uspace (fs : filesys) f g n text,
  wordy uspace n -> ~ In 58 n -> finished uspace g (Some n) text -> gd_get streq fs (lit "logs/" ++ f) = Some text ->
  exists d, pull_stats_from_file uspace fs f = Ok d /\ gd_get streq d (lit "Ratio") = None /\ shown g d /\
    gd_get streq d (lit "# of Nodes") = Some (SText n).
Proof. exact ratio_lost_. Qed.
Print Assumptions C76_finished_refuted.

(** The table: a row for the last log of each name, with what name and file tell. *)
Theorem C76_table : forall uspace (fs : filesys) listing, Forall (fun f => is_log f -> readable uspace fs f) listing ->
  exists table, get_all_logs uspace fs listing = Ok table /\
    (forall pre f post, listing = pre ++ f :: post -> is_log f -> (forall f', In f' post -> is_log f' -> row_name f' <> row_name f) ->
      exists r, gd_get streq table (row_name f) = Some r /\ row_of uspace fs f r) /\
    (forall name r, gd_get streq table name = Some r -> exists f, In f listing /\ is_log f /\ row_name f = name).
Proof. exact table_. Qed.
Print Assumptions C76_table.

(** One log that cannot be read, and there is no table. *)
Theorem C76_table_fails : forall uspace (fs : filesys) pre f post e, Forall (fun f => is_log f -> readable uspace fs f) pre -> is_log f ->
  pull_params_from_name f = Err e \/ (exists ps, pull_params_from_name f = Ok ps) /\ pull_stats_from_file uspace fs f = Err e ->
  get_all_logs uspace fs (pre ++ f :: post) = Err e.
Proof. exact table_fails_. Qed.
Print Assumptions C76_table_fails.

Theorem C76_table_refuted : get_all_logs ascii_only log_files [lit "bib-FastCTW-16.123.log"; lit "notes.log"] = Err ValueError.
Proof. exact spoiled. Qed.
Print Assumptions C76_table_refuted.

(** Finished jobs with different names: their parameters and figures are in the table. *)
Theorem C76_results : forall uspace (fs : filesys) (logs : list (job * pystr * figures)),
  NoDup (map (fun x => job_name (fst (fst x))) logs) ->
  Forall (fun x => let '(j, id, g) := x in plain_job j /\ ~ In 46 (j_protocol j) /\ ~ In 46 (j_model j) /\
    exists text, gd_get streq fs (lit "logs/" ++ log_name j id) = Some text /\ finished uspace g None text) logs ->
  exists table, get_all_logs uspace fs (map (fun x => log_name (fst (fst x)) (snd (fst x))) logs) = Ok table /\
    forall j id g, In (j, id, g) logs -> exists r, gd_get streq table (job_name j) = Some r /\
      gd_get streq r (lit "protocol") = Some (SText (j_protocol j)) /\
      gd_get streq r (lit "model") = Some (SText (j_model j)) /\
      gd_get streq r (lit "depth") = Some (SText (str_of_int (j_depth j))) /\
      gd_get streq r (lit "Ratio") = Some (SText (g_ratio g ++ lit "%")) /\ shown g r.
Proof. exact results_. Qed.
Print Assumptions C76_results.

Example C76_results_ex : log_name a_job (lit "123") = lit "bib-FastCTW-16.123.log" /\ plain_job a_job /\ ~ In 46 (j_protocol a_job) /\ ~ In 46 (j_model a_job) /\
  exists text, gd_get streq log_files (lit "logs/" ++ log_name a_job (lit "123")) = Some text /\ finished ascii_only some_figures None text.
Proof. exact results_ex. Qed.

(** Later logs of the same job, or of a job whose name is the same up to the first dot, replace the row. *)
Theorem C76_results_refuted : exists r6 r8,
  get_all_logs ascii_only two_runs [lit "a-b-1.5.log"; lit "a-b-1.6.log"; lit "f.txt-b-1.7.log"; lit "f.bin-b-1.8.log"] =
  Ok [(lit "a-b-1", r6); (lit "f", r8)] /\ gd_get streq r6 (lit "x") = Some (SText (lit "2")) /\
  gd_get streq r8 (lit "filename") = Some (SText (lit "f.bin-b-1.8.log")).
Proof. exact rows_lost. Qed.
Print Assumptions C76_results_refuted.
