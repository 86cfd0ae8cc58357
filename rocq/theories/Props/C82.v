(** C82: the log of a Structure. *)
From Verif Require Import Model.StructLogs Spec.StructLogsSpec Proofs.StructuresNeg Proofs.NestedNeg Proofs.StructLogsFacts Proofs.StructLogsTop.
Open Scope Z_scope.

(** [save_data()] writes the path and the data to the log of the instance and to no other file, and not again. *)
Theorem C82_save_partial : forall to_csv c fs a d f p v t, logs_to c a d f p -> get_value a (lit "_data") = Some v -> to_csv v = Some t ->
  gd_get streq fs d = None -> gd_get streq fs p = None ->
  exists fs2, save_data to_csv c fs a None = (fs2, Ok (Some p)) /\ gd_get streq fs2 p = Some (log_text p t) /\
    (forall q, q <> p -> gd_get streq fs2 q = gd_get streq fs q) /\
    forall x, save_data to_csv c fs2 a x = (fs2, Ok None).
Proof. exact saved. Qed.
Print Assumptions C82_save_partial.

Example C82_save_ex : logs_to exp_logs log_exp exp_dir (lit "data.txt") (exp_dir ++ lit "/data.txt") /\
  exists v, get_value log_exp (lit "_data") = Some v /\ exists t, frame_csv v = Some t /\
  frame_read (log_text (exp_dir ++ lit "/data.txt") t) = Ok v.
Proof. exact saved_ex. Qed.

(** However it is called, it changes no file that is there, and makes none but the log of the instance. *)
Theorem C82_no_other_file : forall to_csv c fs a x fs2 r, save_data to_csv c fs a x = (fs2, r) -> forall q,
  gd_get streq fs2 q = gd_get streq fs q \/ (gd_get streq fs q = None /\ log_file_path c a = Ok q).
Proof. exact save_keeps. Qed.
Print Assumptions C82_no_other_file.

(** Instances of a class in one directory that log to one file have the same fields, on all levels. *)
Theorem C82_own_log_partial : forall literal_eval uninumeric is_float, evaluates literal_eval -> forall c base a b p d1 d2 f1 f2,
  nested_ok literal_eval uninumeric is_float (l_members c) a -> nested_ok literal_eval uninumeric is_float (l_members c) b ->
  NoDup (all_names (l_members c)) -> ~ In (lit "base_dir") (all_names (l_members c)) -> normal_dir base ->
  get_value a (lit "base_dir") = Some (VStr base) -> get_value b (lit "base_dir") = Some (VStr base) ->
  logs_to c a d1 f1 p -> logs_to c b d2 f2 p -> alike (l_members c) a b.
Proof. exact same_log. Qed.
Print Assumptions C82_own_log_partial.

Example C82_own_log_ex : evaluates simple_eval /\ nested_ok simple_eval (fun _ => false) (fun _ => false) (l_members exp_logs) log_exp /\
  NoDup (all_names (l_members exp_logs)) /\ ~ In (lit "base_dir") (all_names (l_members exp_logs)) /\ normal_dir (lit "/data") /\
  get_value log_exp (lit "base_dir") = Some (VStr (lit "/data")) /\
  logs_to exp_logs log_exp exp_dir (lit "data.txt") (exp_dir ++ lit "/data.txt").
Proof. exact same_ex. Qed.

(** [load_data()] gives the saved data if the class has an attribute base_path with the directory of the log. *)
Theorem C82_load_partial : forall read_csv c fs a d f p t v, logs_to c a d f p -> no_data a ->
  get_value a (lit "base_path") = Some (VStr d) -> gd_get streq fs p = Some t -> read_csv t = Ok v ->
  exists a2, load_data read_csv c fs a None = (a2, Ok v) /\ get_value a2 (lit "_data") = Some v.
Proof. exact loaded. Qed.
Print Assumptions C82_load_partial.

Example C82_load_ex : let a := fresh_exp ++ [value "base_path" (VStr exp_dir)] in
  logs_to exp_logs a exp_dir (lit "data.txt") (exp_dir ++ lit "/data.txt") /\ no_data a /\ get_value a (lit "base_path") = Some (VStr exp_dir).
Proof. exact loaded_ex. Qed.

(** No class of the repository has it: a log that is there cannot be loaded. *)
Theorem C82_load_refuted : forall read_csv c fs a d f p t, logs_to c a d f p -> no_data a ->
  gd_get streq (own_attrs a) (lit "base_path") = None -> gd_get streq fs p = Some t ->
  load_data read_csv c fs a None = (a, Err AttributeError).
Proof. exact not_loaded. Qed.
Print Assumptions C82_load_refuted.

Example C82_load_refuted_ex : logs_to exp_logs fresh_exp exp_dir (lit "data.txt") (exp_dir ++ lit "/data.txt") /\ no_data fresh_exp /\
  gd_get streq (own_attrs fresh_exp) (lit "base_path") = None.
Proof. exact fresh_ex. Qed.

(** [load_data(base_dir)] looks for the log in the directory of the instance, and loads the file at the top. *)
Theorem C82_load_top_refuted : forall read_csv c fs a b d f p t, b <> [] -> let a2 := gd_set streq a (lit "base_dir") (SVal (Some (VStr b))) in
  logs_to c a2 d f p -> no_data a -> gd_get streq fs p = Some t ->
  snd (load_data read_csv c fs a (Some b)) = match gd_get streq fs (path_join2 b f) with Some u => read_csv u | None => Err OSError end.
Proof. exact loaded_top. Qed.
Print Assumptions C82_load_top_refuted.

(** It may be the log of another Structure. *)
Example C82_load_top_ex : exists fs, gd_get streq fs (lit "/data/seed-1/data.txt") = Some (log_text (lit "/data/seed-1/data.txt") (lit "one")) /\
  gd_get streq fs (lit "/data/data.txt") = Some (log_text (lit "/data/data.txt") (lit "other")) /\
  snd (load_data frame_read seed_logs fs [value "seed" (VInt 1)] (Some (lit "/data"))) = Ok (VOther (lit "other")).
Proof. exact wrong_log. Qed.

(** [save_data(data)] of an instance without data fails, and leaves a log without data, after which nothing is saved any more. *)
Theorem C82_save_given_refuted : forall to_csv c fs a d f p v, logs_to c a d f p -> no_data a -> gd_get streq fs d = None -> gd_get streq fs p = None ->
  exists fs2, save_data to_csv c fs a (Some v) = (fs2, Err AttributeError) /\ gd_get streq fs2 p = Some (log_text p []) /\
    forall x b, logs_to c b d f p -> (x <> None \/ exists w, get_value b (lit "_data") = Some w) -> save_data to_csv c fs2 b x = (fs2, Ok None).
Proof. exact save_given. Qed.
Print Assumptions C82_save_given_refuted.

Example C82_save_given_ex : exists fs2, save_data frame_csv exp_logs [] fresh_exp (Some (VOther (lit "new"))) = (fs2, Err AttributeError) /\
  gd_get streq fs2 (exp_dir ++ lit "/data.txt") = Some (lit "# " ++ exp_dir ++ lit "/data.txt" ++ [nl]) /\
  save_data frame_csv exp_logs fs2 log_exp None = (fs2, Ok None).
Proof. exact given_ex. Qed.

(** With data it writes those, not the data it is given. *)
Theorem C82_save_other_refuted : forall to_csv c fs a w, (exists v, get_value a (lit "_data") = Some v) ->
  save_data to_csv c fs a (Some w) = save_data to_csv c fs a None.
Proof. exact save_other. Qed.
Print Assumptions C82_save_other_refuted.

Example C82_save_other_ex : save_data frame_csv exp_logs [] log_exp (Some (VOther (lit "new"))) =
  ([(exp_dir ++ lit "/data.txt", log_text (exp_dir ++ lit "/data.txt") (lit "a b
1 2
"))], Ok (Some (exp_dir ++ lit "/data.txt"))).
Proof. exact other_ex. Qed.

(** [data]: what is in memory; else, if there is no log, what [run] makes; else AttributeError. *)
Theorem C82_data_partial : forall read_csv c fs a run,
  (forall v, get_value a (lit "_data") = Some v -> data read_csv run c fs a = (fs, a, Ok v)) /\
  (no_data a -> forall d f p, logs_to c a d f p -> gd_get streq fs p = None -> data read_csv run c fs a = run fs a) /\
  (no_data a -> forall d f p t, logs_to c a d f p -> gd_get streq fs p = Some t -> gd_get streq (own_attrs a) (lit "base_path") = None ->
     data read_csv run c fs a = (fs, a, Err AttributeError)).
Proof. exact data_ok. Qed.
Print Assumptions C82_data_partial.
