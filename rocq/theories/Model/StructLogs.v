(** datasets.py:433-530: the log of a Structure. Files are those of Model/LogData.v: what lies at a path is a file, and
    directories are there. [_data] and [base_dir] are attributes of the instance like others; one that holds another
    Structure counts as missing. *)
From Verif Require Export Model.Records Model.LogFiles.
Open Scope Z_scope.

(** A class: its fields, [log_data], and [log_file] if it has one, which no attribute changes. *)
Record log_class := LogClass { l_members : list member; l_log_data : bool; l_log_file : option pystr }.

Definition self_attr (a : sattrs) (n : string) : result pval := attribute (own_attrs a) (lit n).

(** datasets.py:440-442; [os.path.join] of something that is no string *)
Definition log_path (members : list member) (a : sattrs) : result pystr :=
  do b <- self_attr a "base_dir";
  do d <- nested_string members a;
  match b with VStr s => Ok (path_join2 s d) | _ => Err TypeError end.

(** datasets.py:444-446 *)
Definition log_file_path (c : log_class) (a : sattrs) : result pystr :=
  do p <- log_path (l_members c) a;
  match l_log_file c with Some f => Ok (path_join2 p f) | None => Err AttributeError end.

(** datasets.py:467-472 *)
Definition loggable (c : log_class) : bool :=
  l_log_data c && match l_log_file c with Some _ => true | None => false end.

(** datasets.py:455-465 *)
Definition log_exists (c : log_class) (fs : filesys) (a : sattrs) : result bool :=
  if loggable c then do p <- log_file_path c a; Ok (gd_mem streq fs p) else Ok false.

(** [raise TypeError(... .format(self.name))]: the name is the directory string *)
Definition type_error {X} (c : log_class) (a : sattrs) : result X :=
  do _ <- nested_string (l_members c) a; Err TypeError.

Section logs.
  (** [data.to_csv(fp, sep=' ', index=False)]: the text, [None] if there is no such method *)
  Variable to_csv : pval -> option pystr.
  (** [pd.read_csv] of a file with this text, with the arguments of LogReader.read_log (logfiles.py:262-284), which skips the first row *)
  Variable read_csv : pystr -> result pval.

  (** datasets.py:508-530. The result is the path, or [None] for False. *)
  Definition save_data (c : log_class) (fs : filesys) (a : sattrs) (data : option pval) : filesys * result (option pystr) :=
    if negb (loggable c) then (fs, type_error c a)
    else
      match data, self_attr a "_data" with
      | None, Err _ => (fs, type_error c a)
      | _, own =>
          match log_exists c fs a with
          | Err e => (fs, Err e)
          | Ok true => (fs, Ok None)
          | Ok false =>
              match (do d <- log_path (l_members c) a; do _ <- makedirs fs d; log_file_path c a) with
              | Err e => (fs, Err e)
              | Ok p =>
                  if is_directory p then (fs, Err OSError)
                  else
                    let top := lit "# " ++ p ++ [nl] in
                    match own with
                    | Err e => (gd_set streq fs p top, Err e)
                    | Ok v =>
                        match to_csv v with
                        | None => (gd_set streq fs p top, Err AttributeError)
                        | Some t => (gd_set streq fs p (top ++ t), Ok (Some p))
                        end
                    end
              end
          end
      end.

  (** logfiles.py:262-284 and pathify, logfiles.py:38-42 *)
  Definition read_log (fs : filesys) (filepath : pystr) (base_dir : pval) : result pval :=
    do path <- match base_dir with
               | VNone => Ok filepath
               | VStr b => Ok (path_join2 b filepath)
               | _ => Err TypeError
               end;
    match gd_get streq fs path with Some t => read_csv t | None => Err OSError end.

  (** datasets.py:485-507 without further keywords. [self.base_path] is nowhere defined in the repository; a
      subclass may have it. *)
  Definition load_data (c : log_class) (fs : filesys) (a : sattrs) (base_dir : option pystr) : sattrs * result pval :=
    let given := match base_dir with Some (x :: b) => Some (x :: b) | _ => None end in
    let a := match given with Some b => gd_set streq a (lit "base_dir") (SVal (Some (VStr b))) | None => a end in
    match self_attr a "_data" with
    | Ok v => (a, Ok v)
    | Err _ =>
        if negb (loggable c) then (a, type_error c a)
        else
          match log_exists c fs a with
          | Err e => (a, Err e)
          | Ok false => (a, type_error c a)
          | Ok true =>
              match (do b <- match given with
                             | Some b => Ok (VStr b)
                             | None => self_attr a "base_path"
                             end;
                     match l_log_file c with
                     | Some f => read_log fs f b
                     | None => Err AttributeError
                     end) with
              | Err e => (a, Err e)
              | Ok v => (gd_set streq a (lit "_data") (SVal (Some v)), Ok v)
              end
          end
    end.

  (** datasets.py:474-482; a Structure has no method run, an Experiment has *)
  Variable run : filesys -> sattrs -> filesys * sattrs * result pval.
  Definition data (c : log_class) (fs : filesys) (a : sattrs) : filesys * sattrs * result pval :=
    match self_attr a "_data" with
    | Ok v => (fs, a, Ok v)
    | Err _ =>
        match log_exists c fs a with
        | Err e => (fs, a, Err e)
        | Ok true => let (a, r) := load_data c fs a None in (fs, a, r)
        | Ok false => run fs a
        end
    end.
End logs.
