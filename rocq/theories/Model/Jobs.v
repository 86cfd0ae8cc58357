(** jobs.py:27-57, 70-205: submitting compression jobs and reading their logs. *)
From Verif Require Export Model.LogData Model.Params Model.Structures.
Open Scope Z_scope.

(** Values of parameters: strings and integers. *)
Inductive jval := JStr (s : pystr) | JInt (n : Z).
(** [str(v)] and ["{}".format(v)] *)
Definition jtext (v : jval) : pystr := match v with JStr s => s | JInt n => str_of_int n end.
(** a value where a string is needed, in [os.path.join] and [str.join] *)
Definition jpath (v : jval) : result pystr := match v with JStr s => Ok s | JInt _ => Err TypeError end.

(** jobs.py:84-90. The default of [positional] is False, of [keyword] True (datasets.py:62-64). *)
Definition option_field (n : pystr) (c : fclass) (d : pval) : field := Field n c false true false true (Some d) None None None.
Definition jobset_fields : list field :=
  [ Field (lit "log_name") CStr true false false false (Some (VStr (lit "logs"))) None None None;
    option_field (lit "debug") CBool (VBool true);
    option_field (lit "run_now") CBool (VBool false);
    option_field (lit "safe_mode") CBool (VBool true);
    option_field (lit "num_minutes") CInt (VInt 20);
    option_field (lit "num_hours") CInt (VInt 0) ].

(** The attributes of a JobSet. [safe_mode] is never used. [run_now] only prints: the module z has no
    attribute [__main__], and every exception is caught (jobs.py:172-178). *)
Record jobset := JobSet { js_log_name : pystr; js_debug : bool; js_minutes : Z; js_hours : Z }.
Definition jobset_attrs (js : jobset) : attrs :=
  [ (lit "log_name", Some (VStr (js_log_name js))); (lit "debug", Some (VBool (js_debug js)));
    (lit "num_minutes", Some (VInt (js_minutes js))); (lit "num_hours", Some (VInt (js_hours js))) ].
(** datasets.py:434-439 *)
Definition log_dir (js : jobset) : result pystr := get_dir_string jobset_fields (jobset_attrs js).

(** jobs.py:186-205 *)
Definition pbs_template (js : jobset) (filename argstring extra : pystr) : result pystr :=
  do dir <- log_dir js;
  Ok (join [nl]
    [ lit "#!/bin/sh";
      [];
      lit "#PBS -S /bin/sh";
      lit "#PBS -j oe";
      lit "#PBS -r n";
      lit "#PBS -o " ++ dir ++ [slash] ++ filename ++ lit ".$PBS_JOBID.log";
      lit "#PBS -l nodes=1:ppn=1,walltime=" ++ str_of_int (js_hours js) ++ lit ":" ++ str_of_int (js_minutes js) ++ lit ":00,mem=4000mb";
      [];
      extra;
      lit "cd $PBS_O_WORKDIR";
      lit "echo ""Current working directory is `pwd`""";
      lit "echo ""Starting run at: `date`""";
      lit "alias pypy=/home/akoop/pypy3-2.4-linux_x86_64-portable/bin/pypy3";
      lit "pypy z.py " ++ argstring;
      lit "echo ""Completed run with exit code $? at: `date`""" ]).

(** [os.rename(p, q)] *)
Definition rename (fs : filesys) (p q : pystr) : filesys :=
  match gd_get streq fs p with
  | Some t => gd_set streq (filter (fun e => negb (streq (fst e) p)) fs) q t
  | None => fs
  end.

(** What a job leaves behind: the command for the queue, the script when the command was given, and
    where the script ends up. *)
Record submission := Submission { sub_cmd : pystr; sub_script : pystr; sub_path : pystr }.

Section jobs.
  Variable uspace : Z -> bool.
  (** The output of the [i]-th command given to the shell; [None] if calling it or decoding what it
      prints raises an exception. *)
  Variable qsub : nat -> pystr -> option pystr.

  (** jobs.py:146-183. The directory of the logs is taken to exist. *)
  Definition submit_job (js : jobset) (fs : filesys) (i : nat) (filename argstring extra : pystr) : filesys * result submission :=
    match pbs_template js filename argstring extra, log_dir js with
    | Ok sh, Ok dir =>
        let tmpfile := path_join2 dir filename in
        let fs := gd_set streq fs tmpfile sh in
        let cmd := lit "qsub " ++ tmpfile in
        let pname := if js_debug js then lit "DEBUG"
                     else match qsub i cmd with Some p => strip_s uspace p | None => lit "FAILED" end in
        let script_path := path_join2 dir (filename ++ lit "." ++ pname ++ lit ".sh") in
        (rename fs tmpfile script_path, Ok (Submission cmd sh script_path))
    | Err e, _ | _, Err e => (fs, Err e)
    end.

  (** jobs.py:101-130: name, arguments and the commands that make the input file. [os.path.exists] is
      about files only. *)
  Definition job_of (fs : filesys) (ps : list (pystr * jval)) : result (pystr * pystr * pystr) :=
    do base_dir <- gd_lookup streq ps (lit "base_dir");
    do platform <- gd_lookup streq ps (lit "platform");
    do protocol <- gd_lookup streq ps (lit "protocol");
    do base_dir <- jpath base_dir;
    do platform <- jpath platform;
    do protocol <- jpath protocol;
    let infile := path_join base_dir [platform; protocol] in
    let paths := map (fun f => path_join base_dir [platform; f]) (split underscore protocol) in
    let extra := if gd_mem streq fs infile then []
                 else join [nl] [ lit "echo ""Checking the existence of the file " ++ protocol ++ lit """";
                                  lit "if [ ! -e " ++ infile ++ lit " ]";
                                  lit "  then `cat " ++ join [sp] paths ++ lit " > " ++ infile ++ lit "`";
                                  lit "  echo ""...created""";
                                  lit "fi" ] in
    do model <- gd_lookup streq ps (lit "model");
    do depth <- gd_lookup streq ps (lit "depth");
    do model <- jpath model;
    let name := join [dash] [protocol; model; jtext depth] in
    let argstring := lit "compress -m " ++ model ++ lit " -d " ++ jtext depth ++ [sp] ++ infile ++ [sp] ++ lit "/dev/null" in
    Ok (name, argstring, extra).

  (** jobs.py:99-133, the loop; [i] is num_submitted *)
  Fixpoint run_sets (js : jobset) (fs : filesys) (i : nat) (param_sets : list (list (pystr * jval))) : filesys * result (list submission) :=
    match param_sets with
    | [] => (fs, Ok [])
    | ps :: rest =>
        match job_of fs ps with
        | Err e => (fs, Err e)
        | Ok (name, argstring, extra) =>
            match submit_job js fs i name argstring extra with
            | (fs, Err e) => (fs, Err e)
            | (fs, Ok s) => let (fs, r) := run_sets js fs (S i) rest in (fs, do l <- r; Ok (s :: l))
            end
        end
    end.
  (** jobs.py:92-135 *)
  Definition run (js : jobset) (fs : filesys) (kwargs : list (pystr * list jval)) : filesys * result (list submission) :=
    run_sets js fs 0 (unique_dict_sets streq kwargs).

  (** ** The logs *)

  Definition colon : Z := 58.
  (** What is found out about a job: texts, or True *)
  Inductive stat := SText (s : pystr) | STrue.

  (** jobs.py:35-40, the loop *)
  Definition stat_step (data : list (pystr * stat)) (s : pystr) : list (pystr * stat) :=
    match split colon s with
    | key :: rest :: _ => match words uspace rest with
                          | w :: _ => gd_set streq data (strip_s uspace key) (SText w)
                          | [] => data
                          end
    | _ => data
    end.

  (** jobs.py:27-41 *)
  Definition pull_stats_from_file (fs : filesys) (filename : pystr) : result (list (pystr * stat)) :=
    do ls <- open_read fs (lit "logs/" ++ filename);
    let stats := skipn (length ls - 7) ls in
    match rev stats with
    | [] => Err IndexError
    | final :: _ =>
        if contains (lit "Starting") final then Ok [(lit "flaked", STrue)]
        else if contains (lit "killed") final then
          Ok [(lit "killed", SText (strip_s uspace (last (split colon final) [])))]
        else Ok (fold_left stat_step stats [])
    end.

  (** jobs.py:43-47 *)
  Definition pull_params_from_name (filename : pystr) : result (list (pystr * stat)) :=
    match split dash filename with
    | protocol :: model :: depth :: _ =>
        Ok [ (lit "filename", SText filename); (lit "protocol", SText protocol); (lit "model", SText model);
             (lit "depth", SText (hd [] (split dot depth))) ]
    | _ => Err ValueError
    end.

  (** jobs.py:49-57; [listing] is [os.listdir('logs')]. The table is a dictionary of dictionaries. *)
  Fixpoint all_logs (fs : filesys) (listing : list pystr) (data : list (pystr * list (pystr * stat))) : result (list (pystr * list (pystr * stat))) :=
    match listing with
    | [] => Ok data
    | f :: listing' =>
        if contains (lit ".log") f then
          let name := hd [] (split dot f) in
          do params <- pull_params_from_name f;
          do stats <- pull_stats_from_file fs f;
          all_logs fs listing' (gd_set streq data name (fold_left (fun d kv => gd_set streq d (fst kv) (snd kv)) stats params))
        else all_logs fs listing' data
    end.
  Definition get_all_logs (fs : filesys) (listing : list pystr) : result (list (pystr * list (pystr * stat))) :=
    all_logs fs listing [].
End jobs.

(** z.py:91-97: the lines that a compression prints at its end; numbers are given as texts, the number of nodes only if the model has a size. *)
Definition pad (n : nat) (s : pystr) : pystr := s ++ repeat sp (n - length s).
Definition z_line (label value : pystr) : pystr := lit "    " ++ pad 15 label ++ [sp] ++ value ++ [nl].
Definition z_stats (ratio size bits time speed : pystr) (nodes : option pystr) (memory : pystr) : list pystr :=
  [ z_line (lit "Ratio:") (ratio ++ lit "%");
    z_line (lit "Size:") (size ++ lit " bytes");
    z_line (lit "Bits per Byte:") bits;
    z_line (lit "Time:") (time ++ lit "s");
    z_line (lit "KB/s:") speed ] ++
  (match nodes with Some n => [z_line (lit "# of Nodes:") n] | None => [] end) ++
  [ z_line (lit "Memory Used:") (memory ++ lit " MB") ].
