(** environments.py:345-648: FileEnvironment, the stepping through the files of a protocol. *)
From Verif Require Export Model.PyStr.
Open Scope Z_scope.

(** environments.py:537-554: the attributes that change; [fe_max] is [current_max], which is read
    only after it was set. *)
Record FileEnv (Row : Type) := {
  fe_iter : option (list (pystr * Z));
  fe_dir : option pystr;
  fe_max : Z;
  fe_step : Z;
  fe_local : Z;
  fe_data : option (list Row) }.
Arguments fe_iter {Row}. Arguments fe_dir {Row}. Arguments fe_max {Row}.
Arguments fe_step {Row}. Arguments fe_local {Row}. Arguments fe_data {Row}.

Section file_environment.
  Context {Row : Type}.
  (** the rows of the file of a directory, at most the given number if there is one
      (LogReader.read_log with [nrows]), and then the filters of _filter_data_block *)
  Variable read : pystr -> option Z -> result (list Row).
  Variable filters : list Row -> result (list Row).
  Variable protocol : list (pystr * Z).

  (** environments.py:537-545 *)
  Definition fe_reset (s : FileEnv Row) : FileEnv Row :=
    {| fe_iter := None; fe_dir := None; fe_max := fe_max s; fe_step := -1; fe_local := -1;
       fe_data := None |}.

  (** environments.py:547-554 *)
  Definition fe_start (s : FileEnv Row) : FileEnv Row :=
    {| fe_iter := Some protocol; fe_dir := None; fe_max := fe_max s; fe_step := 0; fe_local := -1;
       fe_data := None |}.

  (** environments.py:587-590 *)
  Definition keep_going (s : FileEnv Row) : bool :=
    match fe_data s with
    | None => false
    | Some d => ((fe_max s =? 0) && (fe_local s <? Z.of_nat (length d)))
                || ((0 <? fe_max s) && (fe_local s <? fe_max s))
    end.

  (** environments.py:592-604 with 606-648: the rest of update_data_block. The call of
      update_data_block from _get_data_block for a directory without name is the inner one. *)
  Fixpoint next_block (rest : list (pystr * Z)) (s : FileEnv Row) : result (FileEnv Row) :=
    match rest with
    | [] => Ok (fe_reset s)
    | (d, m) :: rest' =>
        let s1 := {| fe_iter := Some rest'; fe_dir := Some d; fe_max := m; fe_step := fe_step s;
                     fe_local := 0; fe_data := fe_data s |} in
        do s2 <- match d with
                 | [] => if keep_going s1 then Ok s1 else next_block rest' s1
                 | _ => Ok s1
                 end;
        let directory := match fe_dir s2 with Some d => d | None => lit "None" end in
        let num_lines := if 0 <? fe_max s2 then Some (fe_max s2) else None in
        do raw_data <- read directory num_lines;
        do data <- filters raw_data;
        Ok {| fe_iter := fe_iter s2; fe_dir := fe_dir s2; fe_max := fe_max s2;
              fe_step := fe_step s2; fe_local := fe_local s2; fe_data := Some data |}
    end.

  (** environments.py:578-604 *)
  Definition update_data_block (s : FileEnv Row) : result (FileEnv Row) :=
    match fe_iter s with
    | None => next_block protocol (fe_start s)
    | Some rest => if keep_going s then Ok s else next_block rest s
    end.

  (** environments.py:471-495 *)
  Definition get_data_block (s : FileEnv Row) : result (option (list Row) * FileEnv Row) :=
    let at_ n := {| fe_iter := fe_iter s; fe_dir := fe_dir s; fe_max := fe_max s;
                    fe_step := fe_step s; fe_local := n; fe_data := fe_data s |} in
    match fe_data s with
    | None => Ok (None, s)
    | Some d =>
        let data_size := Z.of_nat (length d) in
        if (fe_max s <=? 0) || (fe_max s =? data_size) then Ok (Some d, at_ data_size)
        else if data_size =? 0 then Err ZeroDivisionError
        else
          let repeats := fe_max s / data_size in
          let remainder := fe_max s mod data_size in
          Ok (Some (List.concat (repeat d (Z.to_nat repeats)) ++ firstn (Z.to_nat remainder) d),
              at_ (fe_max s))
    end.

  (** environments.py:422-432: __iter_chunks__, run to the end *)
  Fixpoint iter_chunks_fuel (fuel : nat) (s : FileEnv Row)
    : result (list (option (list Row)) * FileEnv Row) :=
    match fe_iter s with
    | None => Ok ([], fe_reset s)
    | Some _ =>
        match fuel with
        | O => Err OutOfFuel
        | S fuel' =>
            do s1 <- update_data_block s;
            do (chunk, s2) <- get_data_block s1;
            do (chunks, s3) <- iter_chunks_fuel fuel' s2;
            Ok (chunk :: chunks, s3)
        end
    end.
  Definition iter_chunks (s : FileEnv Row) : result (list (option (list Row)) * FileEnv Row) :=
    iter_chunks_fuel (S (length protocol)) (fe_start s).

  (** environments.py:434-438; [pd.concat] drops None and refuses a list of nothing else. *)
  Definition get_all_data (s : FileEnv Row) : result (list Row * FileEnv Row) :=
    do (chunks, s1) <- iter_chunks s;
    match flat_map (fun c => match c with Some d => [d] | None => [] end) chunks with
    | [] => Err ValueError
    | ds => Ok (List.concat ds, s1)
    end.

  (** environments.py:568-576; [None] is the index left out *)
  Definition fe_get_data (s : FileEnv Row) (index : option Z) : result (option Row) :=
    match fe_data s with
    | None => Ok None
    | Some d =>
        do i <- match index with
                | Some i => Ok i
                | None => match d with
                          | [] => Err ZeroDivisionError
                          | _ => Ok (fe_local s mod Z.of_nat (length d))
                          end
                end;
        if i <? 0 then Err KeyError
        else match nth_error d (Z.to_nat i) with
             | Some r => Ok (Some r)
             | None => Err KeyError
             end
    end.

  (** environments.py:556-566 *)
  Definition fe_update (s : FileEnv Row) : result (option Row * FileEnv Row) :=
    do s1 <- update_data_block s;
    do data <- fe_get_data s1 None;
    Ok (data, {| fe_iter := fe_iter s1; fe_dir := fe_dir s1; fe_max := fe_max s1;
                 fe_step := fe_step s1 + 1; fe_local := fe_local s1 + 1; fe_data := fe_data s1 |}).

  (** a program: [n] calls of update *)
  Fixpoint fe_updates (n : nat) (s : FileEnv Row) : result (list (option Row) * FileEnv Row) :=
    match n with
    | O => Ok ([], s)
    | S n' =>
        do (x, s1) <- fe_update s;
        do (xs, s2) <- fe_updates n' s1;
        Ok (x :: xs, s2)
    end.
End file_environment.

(** environments.py:505-535: set_headers, given the headers of the first file: the headers kept and
    the mapping of those requested by their first part. *)
Fixpoint set_headers (file_headers headers : list pystr) : list pystr * list (pystr * pystr) :=
  match file_headers with
  | [] => ([], [])
  | h :: hs =>
      let '(kept, mapping) := set_headers hs headers in
      if existsb (streq h) headers then (h :: kept, mapping)
      else
        let part := hd [] (split dash h) in
        if existsb (streq part) headers then (h :: kept, (h, part) :: mapping)
        else (kept, mapping)
  end.
