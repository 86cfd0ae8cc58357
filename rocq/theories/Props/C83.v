(** C83: Experiments. *)
From Verif Require Import Model.Experiments Spec.ExperimentsSpec Proofs.NestedNeg Proofs.ExperimentsFacts Proofs.ExperimentsModel Proofs.ExperimentsTop.
Open Scope Z_scope.

(** Entering puts the Structures inside, on all levels, one into the directory of the other, and changes no field. *)
Theorem C83_enter_partial : forall experiment members a d, ready experiment [] members a -> get_value a (lit "base_dir") = Some (VStr d) ->
  exists b, enter_exp experiment members a = (b, Ok tt) /\ entered experiment members b /\ kept_all experiment members [] a b /\
    get_value b (lit "base_dir") = Some (VStr d) /\ nested_string members b = nested_string members a.
Proof. exact enter_ok. Qed.
Print Assumptions C83_enter_partial.

Example C83_enter_ex : ready holds_some [] study_class study /\ get_value study (lit "base_dir") = Some (VStr (lit "/data")) /\
  let b := fst (enter_exp holds_some study_class study) in
  dir_of leaf_class (at_path ["trial"; "env"]%string b) = Some (lit "/data/seed-5/trial/tree") /\
  dir_of agent_class (at_path ["trial"; "agent"]%string b) = Some (lit "/data/seed-5/trial/tree/agent/depth-48") /\
  match at_path ["trial"; "agent"]%string b with Some x => get_value x (lit "input_dim") | None => None end = Some (VInt 3).
Proof. exact study_ex. Qed.

(** If only Structs show in the directory, the last of them logs where the Experiment itself does. *)
Theorem C83_last_dir : forall experiment members b base l n req k p t ms inh z, entered experiment members b -> shows_structs members b ->
  get_value b (lit "base_dir") = Some (VStr base) -> normal_dir base -> base <> [] -> base <> [slash] ->
  members = l ++ [MStruct n req k p t (Some (ms, inh))] -> gd_get streq b n = Some (SInst z) ->
  log_path ms z = log_path members b.
Proof. exact last_dir. Qed.
Print Assumptions C83_last_dir.

Example C83_last_dir_ex : let b := fst (enter_exp holds_some trial_class lone_trial) in
  entered holds_some trial_class b /\ shows_structs trial_class b /\ get_value b (lit "base_dir") = Some (VStr (lit "/data")) /\ normal_dir (lit "/data").
Proof. exact last_ex. Qed.

(** [run] calls the entered instance, and gives its result. *)
Theorem C83_run : forall experiment log_model model_file dump call ms fs a base, ready experiment [] ms a ->
  get_value a (lit "base_dir") = Some (VStr base) ->
  exists b, entered experiment ms b /\ kept_all experiment ms [] a b /\ nested_string ms b = nested_string ms a /\
    forall fs1 a1 r fs2, call fs b = (fs1, a1, r) -> exit_exp experiment log_model model_file dump ms fs1 a1 = (fs2, Ok tt) ->
      run_exp experiment log_model model_file dump call ms fs a = (fs2, a1, r).
Proof. exact run_ok. Qed.
Print Assumptions C83_run.

(** Experiments with different positional fields give their parts the same directories, and get the models of each other. *)
Theorem C83_shared_refuted : exists members a b p1 p2 q, ready holds_some [] members a /\ ready holds_some [] members b /\
  let a2 := fst (enter_exp holds_some members a) in let b2 := fst (enter_exp holds_some members b) in
  log_path members a2 = Ok p1 /\ log_path members b2 = Ok p2 /\ p1 <> p2 /\
  dir_of trial_class (at_path ["trial"]%string a2) = Some q /\ dir_of trial_class (at_path ["trial"]%string b2) = Some q /\
  let exit := exit_exp holds_some trial_logs pickle_file text_dump in
  let fs := fst (exit members (fst (exit members [] a2)) b2) in
  snd (exit members [] a2) = Ok tt /\ snd (exit members (fst (exit members [] a2)) b2) = Ok tt /\
  match at_path ["trial"]%string b2 with Some x => get_value x (lit "_model") | None => None end = Some (VStr (lit "second")) /\
  match at_path ["trial"]%string b2 with
  | Some x => snd (load_model holds_some trial_logs pickle_file text_dump text_undump (fun fs a => (fs, a, Ok VNone)) trial_class fs
                     (filter (fun y => negb (streq (fst y) (lit "_model"))) x))
  | None => Err ValueError
  end = Ok (VStr (lit "first")).
Proof. exact shared_dirs. Qed.
Print Assumptions C83_shared_refuted.

(** That an inner Experiment cannot be entered is not noticed: its parts have no directory. *)
Theorem C83_silent_refuted : exists b, enter_exp holds_some blind_class study = (b, Ok tt) /\
  snd (enter_exp holds_some trial_class (match at_path ["trial"]%string b with Some x => x | None => [] end)) = Err AttributeError /\
  match at_path ["trial"; "agent"]%string b with Some x => log_path agent_class x | None => Err ValueError end = Err AttributeError.
Proof. exact silent_failure. Qed.
Print Assumptions C83_silent_refuted.

(** [save_model] writes the model to the file of the instance and to no other, *)
Theorem C83_save_model : forall model_file dump ms fs a d f p m x, model_at model_file ms a d f p ->
  (x = Some m \/ x = None /\ get_value a (lit "_model") = Some m) -> gd_get streq fs d = None -> gd_get streq fs p = None ->
  exists fs2, save_model model_file dump ms fs a x = (fs2, Ok (Some p)) /\ gd_get streq fs2 p = Some (dump m) /\
    (forall q, q <> p -> gd_get streq fs2 q = gd_get streq fs q).
Proof. exact model_saved. Qed.
Print Assumptions C83_save_model.

(** once, *)
Theorem C83_save_once : forall model_file dump ms fs a d f p x t, model_at model_file ms a d f p ->
  (x <> None \/ exists m, get_value a (lit "_model") = Some m) ->
  gd_get streq fs p = Some t -> save_model model_file dump ms fs a x = (fs, Ok None).
Proof. exact model_once. Qed.
Print Assumptions C83_save_once.

(** and fails without a model. *)
Theorem C83_save_missing : forall model_file dump ms fs a s, no_model a -> nested_string ms a = Ok s ->
  save_model model_file dump ms fs a None = (fs, Err TypeError).
Proof. exact model_missing. Qed.
Print Assumptions C83_save_missing.

Example C83_save_ex : model_at pickle_file trial_class model_trial trial_dir (lit "model.pickle") (trial_dir ++ lit "/model.pickle") /\
  get_value model_trial (lit "_model") = Some (VStr (lit "weights")) /\
  model_at pickle_file trial_class lone_trial trial_dir (lit "model.pickle") (trial_dir ++ lit "/model.pickle") /\ no_model lone_trial /\
  trial_logs trial_class = true /\ text_undump (text_dump (VStr (lit "weights"))) = Ok (VStr (lit "weights")).
Proof. exact model_ex. Qed.

(** Leaving changes no file. Files it adds hold the models of the Experiment or of those inside, at their paths. *)
Theorem C83_exit_adds : forall experiment log_model model_file dump ms fs a fs2 r,
  exit_exp experiment log_model model_file dump ms fs a = (fs2, r) -> forall q,
  gd_get streq fs2 q = gd_get streq fs q \/
  (gd_get streq fs q = None /\ exists ms2 x m, part experiment ms a ms2 x /\ log_model ms2 = true /\ model_file_path model_file ms2 x = Ok q /\
     self_attr x "_model" = Ok m /\ gd_get streq fs2 q = Some (dump m)).
Proof. exact exit_adds. Qed.
Print Assumptions C83_exit_adds.

(** If leaving succeeds, all of them that log models have one. *)
Theorem C83_exit_saves : forall experiment log_model model_file dump ms fs a fs2,
  exit_exp experiment log_model model_file dump ms fs a = (fs2, Ok tt) -> forall ms2 x d f p,
  part experiment ms a ms2 x -> log_model ms2 = true -> model_at model_file ms2 x d f p -> gd_get streq fs2 p <> None.
Proof. exact exit_saves. Qed.
Print Assumptions C83_exit_saves.

Example C83_exit_ex : exists fs, exit_exp holds_some trial_logs pickle_file text_dump named_class [] (fst (enter_exp holds_some named_class (named_exp "one" "first"))) = (fs, Ok tt) /\
  gd_get streq fs (lit "/data/trial/tree/agent/depth-48/model.pickle") = Some (lit "first").
Proof. exact exit_ex. Qed.

(** [load_model]: the model in memory, *)
Theorem C83_load_memory : forall experiment log_model model_file dump undump call ms fs a m, get_value a (lit "_model") = Some m ->
  load_model experiment log_model model_file dump undump call ms fs a = (fs, a, Ok m).
Proof. exact load_has. Qed.
Print Assumptions C83_load_memory.

(** or in the file, without running anything, *)
Theorem C83_load_file : forall experiment log_model model_file dump undump call ms fs a d f p t, model_at model_file ms a d f p -> no_model a ->
  log_model ms = true -> gd_get streq fs p = Some t ->
  load_model experiment log_model model_file dump undump call ms fs a = (fs, a, undump t).
Proof. exact load_file. Qed.
Print Assumptions C83_load_file.

(** or else that of a run. *)
Theorem C83_load_runs : forall experiment log_model model_file dump undump call ms fs a d f p base, model_at model_file ms a d f p -> no_model a ->
  log_model ms = true -> gd_get streq fs p = None -> ready experiment [] ms a -> get_value a (lit "base_dir") = Some (VStr base) ->
  exists b, entered experiment ms b /\ kept_all experiment ms [] a b /\ forall fs1 a1 v, call fs b = (fs1, a1, Ok v) ->
    (forall m fs2, get_value a1 (lit "_model") = Some m -> exit_exp experiment log_model model_file dump ms fs1 a1 = (fs2, Ok tt) ->
       load_model experiment log_model model_file dump undump call ms fs a = (fs2, a1, Ok m)) /\
    (forall fs2 e, exit_exp experiment log_model model_file dump ms fs1 a1 = (fs2, Err e) ->
       load_model experiment log_model model_file dump undump call ms fs a = (fs2, a1, Err e)).
Proof. exact load_runs. Qed.
Print Assumptions C83_load_runs.

(** A class without a model says so. *)
Theorem C83_load_none : forall experiment log_model model_file dump undump call ms fs a s, no_model a -> log_model ms = false ->
  nested_string ms a = Ok s -> load_model experiment log_model model_file dump undump call ms fs a = (fs, a, Err NotImplementedError).
Proof. exact load_none. Qed.
Print Assumptions C83_load_none.

(** Instances of a class in one directory that share the file of the model have the same fields, on all levels. *)
Theorem C83_own_model : forall model_file literal_eval uninumeric is_float, evaluates literal_eval -> forall ms base a b p d1 d2 f1 f2,
  nested_ok literal_eval uninumeric is_float ms a -> nested_ok literal_eval uninumeric is_float ms b ->
  NoDup (all_names ms) -> ~ In (lit "base_dir") (all_names ms) -> normal_dir base ->
  get_value a (lit "base_dir") = Some (VStr base) -> get_value b (lit "base_dir") = Some (VStr base) ->
  model_at model_file ms a d1 f1 p -> model_at model_file ms b d2 f2 p -> alike ms a b.
Proof. exact same_model. Qed.
Print Assumptions C83_own_model.
