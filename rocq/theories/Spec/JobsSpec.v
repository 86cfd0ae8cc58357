(** C76: jobs and their logs as a user describes them. *)
From Verif Require Export Model.Jobs Spec.LogSpec Spec.FileNames.
Open Scope Z_scope.

(** A job: which file to compress, with which model. *)
Record job := Job { j_base : pystr; j_platform : pystr; j_protocol : pystr; j_model : pystr; j_depth : Z }.

(** the set of parameters [ps] asks for the job [j] *)
Definition asks (ps : list (pystr * jval)) (j : job) : Prop :=
  gd_get streq ps (lit "base_dir") = Some (JStr (j_base j)) /\
  gd_get streq ps (lit "platform") = Some (JStr (j_platform j)) /\
  gd_get streq ps (lit "protocol") = Some (JStr (j_protocol j)) /\
  gd_get streq ps (lit "model") = Some (JStr (j_model j)) /\
  gd_get streq ps (lit "depth") = Some (JInt (j_depth j)).

(** The options to be combined: four lists of strings, each on one line, and one of integers, maybe
    among others. *)
Definition has_options (kwargs : list (pystr * list jval)) : Prop :=
  NoDup (map fst kwargs) /\
  (forall k, In k [lit "base_dir"; lit "platform"; lit "protocol"; lit "model"] ->
    exists vs, In (k, map JStr vs) kwargs /\ Forall (fun s => ~ In 10 s) vs) /\
  exists ns, In (lit "depth", map JInt ns) kwargs.

(** every way to choose one of the options for each key *)
Definition choices (kwargs : list (pystr * list jval)) (sets : list (list (pystr * jval))) : Prop :=
  (forall d, In d sets <-> map fst d = map fst kwargs /\
    forall k v, In (k, v) d -> exists vs, In (k, vs) kwargs /\ In v vs) /\
  length sets = fold_right (fun p n => length (snd p) * n)%nat 1%nat kwargs /\
  (Forall (fun p => NoDup (snd p)) kwargs -> NoDup sets).

(** the file to be compressed; the protocol a_b stands for the files a and b one after the other *)
Definition input_file (j : job) : pystr := path_join (j_base j) [j_platform j; j_protocol j].
Definition input_parts (j : job) : list pystr :=
  map (fun f => path_join (j_base j) [j_platform j; f]) (split 95 (j_protocol j)).

(** the name of a job: protocol-model-depth *)
Definition job_name (j : job) : pystr := j_protocol j ++ 45 :: j_model j ++ 45 :: str_of_int (j_depth j).

(** a name that can be taken apart again *)
Definition plain_job (j : job) : Prop :=
  ~ In 45 (j_protocol j) /\ ~ In 45 (j_model j) /\ 0 <= j_depth j /\ (forall s, j_protocol j <> 47 :: s).

Definition plain_options (kwargs : list (pystr * list jval)) : Prop :=
  (forall vs s, In (lit "protocol", vs) kwargs -> In (JStr s) vs -> ~ In 45 s /\ forall t, s <> 47 :: t) /\
  (forall vs s, In (lit "model", vs) kwargs -> In (JStr s) vs -> ~ In 45 s) /\
  (forall vs n, In (lit "depth", vs) kwargs -> In (JInt n) vs -> 0 <= n).

(** a file in a directory whose name does not end with a slash *)
Definition in_dir (dir name : pystr) : pystr :=
  match dir with
  | [] => name
  | _ => if is_prefix [47] name then name else dir ++ 47 :: name
  end.

(** What the shell does with a script: the lines that are neither empty nor comments. *)
Definition commands (sh : pystr) : list pystr :=
  filter (fun l => match l with [] => false | c :: _ => negb (c =? 35) end) (split 10 sh).
(** what the queue does with it *)
Definition directives (sh : pystr) : list pystr := filter (is_prefix (lit "#PBS ")) (split 10 sh).

(** [z.py] called with these arguments *)
Definition z_command (j : job) : pystr :=
  join [32] [lit "pypy"; lit "z.py"; lit "compress"; lit "-m"; j_model j; lit "-d"; str_of_int (j_depth j); input_file j; lit "/dev/null"].
(** the input file is put together first *)
Definition make_input (j : job) : list pystr :=
  [ lit "echo ""Checking the existence of the file " ++ j_protocol j ++ lit """";
    lit "if [ ! -e " ++ input_file j ++ lit " ]";
    lit "  then `" ++ join [32] (lit "cat" :: input_parts j ++ [lit ">"; input_file j]) ++ lit "`";
    lit "  echo ""...created""";
    lit "fi" ].
Definition job_commands (missing : bool) (j : job) : list pystr :=
  (if missing then make_input j else []) ++
  [ lit "cd $PBS_O_WORKDIR";
    lit "echo ""Current working directory is `pwd`""";
    lit "echo ""Starting run at: `date`""";
    lit "alias pypy=/home/akoop/pypy3-2.4-linux_x86_64-portable/bin/pypy3";
    z_command j;
    lit "echo ""Completed run with exit code $? at: `date`""" ].
Definition job_directives (js : jobset) (j : job) : list pystr :=
  [ lit "#PBS -S /bin/sh"; lit "#PBS -j oe"; lit "#PBS -r n";
    lit "#PBS -o " ++ js_log_name js ++ [47] ++ job_name j ++ lit ".$PBS_JOBID.log";
    lit "#PBS -l nodes=1:ppn=1,walltime=" ++ str_of_int (js_hours js) ++ lit ":" ++ str_of_int (js_minutes js) ++ lit ":00,mem=4000mb" ].

Section history.
  Variable uspace : Z -> bool.
  Variable qsub : nat -> pystr -> option pystr.
  Variable js : jobset.

  (** the number that the queue gives to its [i]-th job *)
  Definition queue_id (i : nat) (cmd id : pystr) : Prop :=
    if js_debug js then id = lit "DEBUG"
    else match qsub i cmd with
         | Some out => trims uspace out id
         | None => id = lit "FAILED"
         end.

  (** The [i]-th submission, of the job [j], while the files [fs] are there. *)
  Record submitted (fs : filesys) (i : nat) (j : job) (s : submission) : Prop := {
    su_cmd : sub_cmd s = lit "qsub " ++ in_dir (js_log_name js) (job_name j);
    su_path : exists id, queue_id i (sub_cmd s) id /\
      sub_path s = in_dir (js_log_name js) (job_name j ++ lit "." ++ id ++ lit ".sh");
    su_shell : exists rest, sub_script s = lit "#!/bin/sh" ++ 10 :: rest;
    su_directives : directives (sub_script s) = job_directives js j;
    su_commands : forall missing, (missing = true <-> gd_get streq fs (input_file j) = None) ->
      commands (sub_script s) = job_commands missing j }.

  (** The files after it: the script under its new name only. *)
  Definition leaves (fs : filesys) (j : job) (s : submission) (fs' : filesys) : Prop :=
    gd_get streq fs' (sub_path s) = Some (sub_script s) /\
    gd_get streq fs' (in_dir (js_log_name js) (job_name j)) = None /\
    forall p, p <> sub_path s -> p <> in_dir (js_log_name js) (job_name j) -> gd_get streq fs' p = gd_get streq fs p.

  (** One submission after the other, for each of the sets of parameters. *)
  Inductive history : filesys -> nat -> list (list (pystr * jval)) -> list submission -> filesys -> Prop :=
  | no_more fs i : history fs i [] [] fs
  | one_more fs i ps j s fs1 sets subs fs2 : asks ps j -> submitted fs i j s -> leaves fs j s fs1 ->
      history fs1 (S i) sets subs fs2 -> history fs i (ps :: sets) (s :: subs) fs2.
End history.

(** A line of a log that tells that [k] is [v]: the name before the first colon, the first word
    between it and the next colon. *)
Definition tells (uspace : Z -> bool) (l k v : pystr) : Prop :=
  exists key r tail ws, l = key ++ 58 :: r ++ tail /\ ~ In 58 key /\ ~ In 58 r /\ (tail = [] \/ exists t, tail = 58 :: t) /\
    trims uspace key k /\ reads uspace (v :: ws) r.

(** the last line that tells [k] tells that it is [v] *)
Definition last_tells (uspace : Z -> bool) (ls : list pystr) (k v : pystr) : Prop :=
  exists pre l post, ls = pre ++ l :: post /\ tells uspace l k v /\ forall l' v', In l' post -> ~ tells uspace l' k v'.

(** the last [n] of a list *)
Definition final {A} (n : nat) (l m : list A) : Prop := exists pre, l = pre ++ m /\ (length m = n \/ pre = [] /\ (length m <= n)%nat).

(** a number printed as text [s], with blanks before its word [w] *)
Definition number (uspace : Z -> bool) (s w : pystr) : Prop := exists n, s = repeat 32 n ++ w /\ wordy uspace w /\ ~ In 58 w.

(** the log of a job: its name, the number it got, and ".log" *)
Definition log_name (j : job) (id : pystr) : pystr := job_name j ++ [46] ++ id ++ lit ".log".

(** the text after the last colon of a line *)
Definition after_colon (l b : pystr) : Prop := ~ In 58 b /\ (l = b \/ exists a, l = a ++ 58 :: b).

(** The log of a finished run: other lines, the figures, the last line of the script. *)
Record figures := Figures { g_ratio : pystr; g_size : pystr; g_bits : pystr; g_time : pystr; g_speed : pystr; g_memory : pystr }.
Definition printed (uspace : Z -> bool) (g : figures) (nodes : option pystr) (ls : list pystr) : Prop :=
  exists ratio bits time speed memory,
    number uspace ratio (g_ratio g) /\ wordy uspace (g_size g) /\ ~ In 58 (g_size g) /\ number uspace bits (g_bits g) /\
    number uspace time (g_time g) /\ number uspace speed (g_speed g) /\ number uspace memory (g_memory g) /\
    ls = z_stats ratio (g_size g) bits time speed nodes memory.
Definition finished (uspace : Z -> bool) (g : figures) (nodes : option pystr) (text : pystr) : Prop :=
  exists before ls code date l, text = concat (before ++ ls ++ [l]) /\ l = lit "Completed run with exit code " ++ code ++ lit " at: " ++ date ++ [10] /\
    Forall is_line before /\ printed uspace g nodes ls /\ one_line date /\ one_line code /\ ~ In 58 code /\
    contains (lit "Starting") l = false /\ contains (lit "killed") l = false.

(** all figures but the ratio are among the data *)
Definition shown (g : figures) (d : list (pystr * stat)) : Prop :=
  gd_get streq d (lit "Size") = Some (SText (g_size g)) /\
  gd_get streq d (lit "Bits per Byte") = Some (SText (g_bits g)) /\
  gd_get streq d (lit "Time") = Some (SText (g_time g ++ lit "s")) /\
  gd_get streq d (lit "KB/s") = Some (SText (g_speed g)) /\
  gd_get streq d (lit "Memory Used") = Some (SText (g_memory g)).


(** ** The table of all logs *)
Definition is_log (f : pystr) : Prop := contains (lit ".log") f = true.
(** the name of the row: up to the first dot *)
Fixpoint row_name (f : pystr) : pystr :=
  match f with [] => [] | c :: f' => if c =? 46 then [] else c :: row_name f' end.
Definition readable (uspace : Z -> bool) (fs : filesys) (f : pystr) : Prop :=
  exists ps st, pull_params_from_name f = Ok ps /\ pull_stats_from_file uspace fs f = Ok st.
(** what is known from the name and from the file; the file prevails *)
Definition row_of (uspace : Z -> bool) (fs : filesys) (f : pystr) (r : list (pystr * stat)) : Prop :=
  exists ps st, pull_params_from_name f = Ok ps /\ pull_stats_from_file uspace fs f = Ok st /\
    forall k, gd_get streq r k = match gd_get streq st k with Some v => Some v | None => gd_get streq ps k end.
