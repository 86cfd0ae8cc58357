(** datasets.py:929-1038: Experiments, Structures that tell the Structures in them where to log, and keep a model.
    [_model] is an attribute like others. [broadcast] of a Struct is never anything but None (datasets.py:62-88: a value that is
    given stays in [kwargs]), so that get_inherited (974-988) does nothing. An inherited Structure is a copy. *)
From Verif Require Export Model.StructLogs.
Open Scope Z_scope.

Section experiments.
  (** which classes are Experiments, by their fields and inherited names; their [log_model] and [model_file] *)
  Variable experiment : list member -> list pystr -> bool.
  Variable log_model : list member -> bool.
  Variable model_file : list member -> option pystr.
  (** [pickle.dump] and [pickle.load] *)
  Variable dump : pval -> pystr.
  Variable undump : pystr -> result pval.

  (** datasets.py:416-431 with [base_dir] and [instance] *)
  Fixpoint inherit (inherited : list pystr) (base_dir : pystr) (instance self : sattrs) : sattrs * result unit :=
    match inherited with
    | [] => (self, Ok tt)
    | n :: rest =>
        match (if streq n (lit "base_dir") then Some (SVal (Some (VStr base_dir))) else gd_get streq instance n) with
        | None => (self, Err AttributeError)
        | Some v => inherit rest base_dir instance (gd_set streq self n v)
        end
    end.

  (** datasets.py:942-964 around the loop *)
  Definition enter_with (loop : sattrs -> pystr -> sattrs * result pystr) (members : list member) (a : sattrs) : sattrs * result unit :=
    match self_attr a "base_dir" with
    | Err e => (a, Err e)
    | Ok base =>
        match get_nonpos_string (own_attrs a) (own_fields members) with
        | Err e => (a, Err e)
        | Ok s =>
            match base with
            | VStr b =>
                let (a, r) := loop (gd_set streq a (lit "input_dim") (SVal (Some VNone))) (normpath (path_join2 b s)) in
                (a, match r with Ok _ => Ok tt | Err e => Err e end)
            | _ => (a, Err TypeError)
            end
        end
    end.
  (** datasets.py:947-961, one turn: the instance, and [base_path] for the next. A value that is no Structure has no
      set_inherited. *)
  Fixpoint enter_member (i : member) (a : sattrs) (base_path : pystr) {struct i} : sattrs * result pystr :=
    match i with
    | MField _ => (a, Ok base_path)
    | MStruct n _ keyword _ _ con =>
        match gd_get streq a n with
        | None => (a, Ok base_path)
        | Some (SVal _) => (a, Err AttributeError)
        | Some (SInst child) =>
            match con with
            | None => (a, Err AttributeError)
            | Some (members, inherited) =>
                let base_path := if keyword then normpath (path_join2 base_path n) else base_path in
                let (child, r) := inherit inherited base_path a child in
                match r with
                | Err e => (gd_set streq a n (SInst child), Err e)
                | Ok _ =>
                    let (child, r) :=
                      if experiment members inherited then
                        enter_with ((fix go (l : list member) (a : sattrs) (base_path : pystr) : sattrs * result pystr :=
                                       match l with
                                       | [] => (a, Ok base_path)
                                       | x :: l' => match enter_member x a base_path with
                                                    | (a, Ok base_path) => go l' a base_path
                                                    | (a, Err e) => (a, Err e)
                                                    end
                                       end) members) members child
                      else (child, Ok tt) in
                    let a := gd_set streq a n (SInst child) in
                    match r with
                    | Ok _ | Err AttributeError =>
                        match log_path members child with
                        | Err e => (a, Err e)
                        | Ok p =>
                            (match gd_get streq (own_attrs child) (lit "output_dim") with
                             | Some v => gd_set streq a (lit "input_dim") (SVal v)
                             | None => a
                             end, Ok p)
                        end
                    | Err e => (a, Err e)
                    end
                end
            end
        end
    end.
  Fixpoint enter_members (l : list member) (a : sattrs) (base_path : pystr) : sattrs * result pystr :=
    match l with
    | [] => (a, Ok base_path)
    | x :: l' => match enter_member x a base_path with
                 | (a, Ok base_path) => enter_members l' a base_path
                 | (a, Err e) => (a, Err e)
                 end
    end.
  Definition enter_exp (members : list member) (a : sattrs) : sattrs * result unit := enter_with (enter_members members) members a.

  (** datasets.py:1029-1031 *)
  Definition model_file_path (members : list member) (a : sattrs) : result pystr :=
    do p <- log_path members a;
    match model_file members with Some f => Ok (path_join2 p f) | None => Err AttributeError end.
  (** datasets.py:1033-1038 *)
  Definition model_exists (members : list member) (fs : filesys) (a : sattrs) : result bool :=
    match model_file_path members a with
    | Ok p => Ok (gd_mem streq fs p)
    | Err AttributeError => Ok false
    | Err e => Err e
    end.
  (** datasets.py:1011-1027. The result is the path, or [None] for False. *)
  Definition save_model (members : list member) (fs : filesys) (a : sattrs) (model : option pval) : filesys * result (option pystr) :=
    match (match model with
           | Some m => Ok m
           | None => match self_attr a "_model" with
                     | Ok m => Ok m
                     | Err _ => do _ <- nested_string members a; Err TypeError
                     end
           end) with
    | Err e => (fs, Err e)
    | Ok m =>
        match model_exists members fs a with
        | Err e => (fs, Err e)
        | Ok true => (fs, Ok None)
        | Ok false =>
            match (do d <- log_path members a; do _ <- makedirs fs d; model_file_path members a) with
            | Err e => (fs, Err e)
            | Ok p => if is_directory p then (fs, Err OSError) else (gd_set streq fs p (dump m), Ok (Some p))
            end
        end
    end.

  (** datasets.py:966-971; values have no [__exit__], nor has a Structure that is no Experiment *)
  Definition exit_self (members : list member) (fs : filesys) (a : sattrs) : filesys * result unit :=
    if log_model members then let (fs, r) := save_model members fs a None in (fs, match r with Ok _ => Ok tt | Err e => Err e end)
    else (fs, Ok tt).
  Fixpoint exit_member (i : member) (fs : filesys) (a : sattrs) {struct i} : filesys * result unit :=
    match i with
    | MStruct n _ _ _ _ (Some (members, inherited)) =>
        match gd_get streq a n with
        | Some (SInst child) =>
            if experiment members inherited then
              let (fs, r) := (fix go (l : list member) (fs : filesys) : filesys * result unit :=
                                match l with
                                | [] => (fs, Ok tt)
                                | x :: l' => match exit_member x fs child with
                                             | (fs, Ok _) => go l' fs
                                             | (fs, Err e) => (fs, Err e)
                                             end
                                end) members fs in
              let (fs, r) := match r with Ok _ => exit_self members fs child | Err e => (fs, Err e) end in
              (fs, match r with Err AttributeError => Ok tt | _ => r end)
            else (fs, Ok tt)
        | _ => (fs, Ok tt)
        end
    | _ => (fs, Ok tt)
    end.
  Fixpoint exit_members (l : list member) (fs : filesys) (a : sattrs) : filesys * result unit :=
    match l with
    | [] => (fs, Ok tt)
    | x :: l' => match exit_member x fs a with
                 | (fs, Ok _) => exit_members l' fs a
                 | (fs, Err e) => (fs, Err e)
                 end
    end.
  Definition exit_exp (members : list member) (fs : filesys) (a : sattrs) : filesys * result unit :=
    match exit_members members fs a with
    | (fs, Ok _) => exit_self members fs a
    | (fs, Err e) => (fs, Err e)
    end.

  (** datasets.py:990-997; [call] is [__call__] of the class *)
  Definition run_exp (call : filesys -> sattrs -> filesys * sattrs * result pval) (members : list member) (fs : filesys) (a : sattrs)
    : filesys * sattrs * result pval :=
    match enter_exp members a with
    | (a, Err e) => (fs, a, Err e)
    | (a, Ok _) =>
        let '(fs, a, r) := call fs a in
        match exit_exp members fs a with
        | (fs, Err e) => (fs, a, Err e)
        | (fs, Ok _) => (fs, a, r)
        end
    end.

  (** datasets.py:999-1009 *)
  Definition load_model (call : filesys -> sattrs -> filesys * sattrs * result pval) (members : list member) (fs : filesys) (a : sattrs)
    : filesys * sattrs * result pval :=
    match self_attr a "_model" with
    | Ok m => (fs, a, Ok m)
    | Err _ =>
        if log_model members then
          match model_exists members fs a with
          | Err e => (fs, a, Err e)
          | Ok false =>
              match run_exp call members fs a with
              | (fs, a, Err e) => (fs, a, Err e)
              | (fs, a, Ok _) => (fs, a, self_attr a "_model")
              end
          | Ok true =>
              (fs, a, do p <- model_file_path members a; match gd_get streq fs p with Some t => undump t | None => Err OSError end)
          end
        else (fs, a, do _ <- nested_string members a; Err NotImplementedError)
    end.
End experiments.
