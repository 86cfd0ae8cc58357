(** logfiles.py:38-49, 236-259, 293-335, 362-449: LogWriter and LogReader. Files are those of
    Model/LogData.v. *)
From Verif Require Export Model.LogData.
Open Scope Z_scope.

(** What is given as headers: nothing, a string, a list of strings, or an object with the attribute
    [headers]. *)
Inductive header_arg := HNone | HStr (s : pystr) | HList (l : list pystr) | HObj (l : list pystr).

(** logfiles.py:428-436: the headers; [num_columns] is their number. [is_empty] (helpers.py:631-654) and [listify] (helpers.py:139-156)
    of lists and strings only. *)
Definition set_headers (value : header_arg) : list pystr :=
  match value with
  | HObj l => l
  | HNone => []
  | HStr s => [s]
  | HList l => l
  end.

(** The attributes of a LogWriter. [w_fp] is [None] if the file was there in safe mode, else whether
    the file is still open. Writes go to the file at once, not when it is closed. *)
Record writer := Writer {
  w_filepath : pystr;
  w_fullpath : pystr;
  w_headers : list pystr;
  w_safe : bool;
  w_fp : option bool
}.

(** logfiles.py:408-413 *)
Definition write (fs : filesys) (w : writer) (value : pystr) : filesys * result unit :=
  match w_fp w with
  | None => (fs, Ok tt)
  | Some true =>
      let old := match gd_get streq fs (w_fullpath w) with Some t => t | None => [] end in
      (gd_set streq fs (w_fullpath w) (old ++ value ++ [nl]), Ok tt)
  | Some false => (fs, Err ValueError)
  end.

(** logfiles.py:401-406; write_args is the same *)
Definition write_list (fs : filesys) (w : writer) (value : list pystr) : filesys * result unit :=
  match value with
  | [] => (fs, Ok tt)
  | _ => write fs w (join [sp] value)
  end.
(** write_list of a string: its characters *)
Definition write_list_str (fs : filesys) (w : writer) (value : pystr) : filesys * result unit :=
  write_list fs w (map (fun c => [c]) value).

(** logfiles.py:438-439 *)
Definition write_comment (fs : filesys) (w : writer) (value : pystr) : filesys * result unit :=
  write fs w (lit "# " ++ value).

(** logfiles.py:415-426; [columns] is the number of columns of the data frame, [csv] what its to_csv
    writes: the line of headers and the rows. *)
Definition write_dataframe (fs : filesys) (w : writer) (columns : nat) (csv : pystr) : filesys * result unit :=
  if Nat.eqb (length (w_headers w)) columns then
    match w_fp w with
    | None => (fs, Err AttributeError)
    | Some true =>
        let old := match gd_get streq fs (w_fullpath w) with Some t => t | None => [] end in
        (gd_set streq fs (w_fullpath w) (old ++ (lit "# " ++ w_filepath w ++ [nl]) ++ csv), Ok tt)
    | Some false => (fs, Err ValueError)
    end
  else (fs, Err ValueError).

(** logfiles.py:447-449 *)
Definition close (w : writer) : writer :=
  match w_fp w with
  | None => w
  | Some _ => Writer (w_filepath w) (w_fullpath w) (w_headers w) (w_safe w) (Some false)
  end.

(** [os.makedirs(d, exist_ok=True)]: directories can be made anywhere but in place of a file. *)
Definition makedirs (fs : filesys) (d : pystr) : result unit :=
  match d with
  | [] => Err OSError
  | _ => if gd_mem streq fs d then Err FileExistsError else Ok tt
  end.

(** a path that ends in "/" cannot be opened *)
Definition is_directory (p : pystr) : bool := match snd (path_split p) with [] => true | _ => false end.

(** logfiles.py:377-399; [base_dir] without value is [None] *)
Definition log_writer (fs : filesys) (filepath : pystr) (base_dir : option pystr) (safe_mode : bool) (headers : header_arg)
  : filesys * result writer :=
  let fullpath := match base_dir with
                  | Some (c :: b) => path_join2 (c :: b) filepath
                  | _ => filepath
                  end in
  let hs := set_headers headers in
  match makedirs fs (fst (path_split fullpath)) with
  | Err e => (fs, Err e)
  | Ok _ =>
      if is_directory fullpath then (fs, Err OSError)
      else if safe_mode && gd_mem streq fs fullpath then (fs, Ok (Writer filepath fullpath hs safe_mode None))
      else
        let w := Writer filepath fullpath hs safe_mode (Some true) in
        let (fs, r) := write_comment (gd_set streq fs fullpath []) w filepath in
        match r with
        | Err e => (fs, Err e)
        | Ok _ => let (fs, r) := write_list fs w hs in
                  (fs, match r with Err e => Err e | Ok _ => Ok w end)
        end
  end.

(** What a program does with a writer. *)
Inductive wop := WWrite (s : pystr) | WList (l : list pystr) | WComment (s : pystr) | WFrame (columns : nat) (csv : pystr) | WClose.
Definition wstep (fs : filesys) (w : writer) (o : wop) : filesys * writer * result unit :=
  match o with
  | WWrite s => let (fs, r) := write fs w s in (fs, w, r)
  | WList l => let (fs, r) := write_list fs w l in (fs, w, r)
  | WComment s => let (fs, r) := write_comment fs w s in (fs, w, r)
  | WFrame n csv => let (fs, r) := write_dataframe fs w n csv in (fs, w, r)
  | WClose => (fs, close w, Ok tt)
  end.
Fixpoint wrun (fs : filesys) (w : writer) (ops : list wop) : filesys * writer * result unit :=
  match ops with
  | [] => (fs, w, Ok tt)
  | o :: ops' =>
      match wstep fs w o with
      | (fs, w, Ok _) => wrun fs w ops'
      | (fs, w, Err e) => (fs, w, Err e)
      end
  end.

(** logfiles.py:362-375: what [with] binds is the file ([__enter__], logfiles.py:441-442), or [None];
    neither has a method set_headers. [exp_obj] is its path and its headers; the exception leaves
    the [with] statement after the file is closed. *)
Inductive with_target := TFile | TNone.
Definition enter (w : writer) : with_target := match w_fp w with None => TNone | Some _ => TFile end.
Definition has_set_headers (t : with_target) : bool := match t with TFile | TNone => false end.
Definition write_log (to_csv : filesys -> filesys) (fs : filesys) (logpath : pystr) (base_dir : option pystr) (safe_mode : bool)
  : filesys * result unit :=
  match log_writer fs logpath base_dir safe_mode HNone with
  | (fs, Err e) => (fs, Err e)
  | (fs, Ok w) => if has_set_headers (enter w) then (to_csv fs, Ok tt) else (fs, Err AttributeError)
  end.

Section reader.
  Variable uspace : Z -> bool.
  (** [isnumeric] beyond ASCII *)
  Variable uninumeric : pystr -> bool.

  (** The attributes of a LogReader; [r_file_headers] is not there before get_headers. *)
  Record reader := Reader {
    r_lines : list pystr;
    r_comments : list pystr;
    r_comment_rows : nat;
    r_file_headers : option (option (list pystr))
  }.

  (** logfiles.py:293-300 and pathify, logfiles.py:38-42 *)
  Definition log_reader (fs : filesys) (filepath : pystr) (base_dir : option pystr) : result reader :=
    let fullpath := match base_dir with Some b => path_join2 b filepath | None => filepath end in
    do ls <- open_read fs fullpath;
    Ok (Reader ls [] 0 None).

  (** logfiles.py:302-308; peek_char (logfiles.py:44-49) does not move the position *)
  Fixpoint reader_skip (ls comments : list pystr) (rows : nat) : list pystr * list pystr * nat :=
    match ls with
    | [] => (ls, comments, rows)
    | l :: ls' => if is_comment l then reader_skip ls' (comments ++ [skipn 1 l]) (S rows) else (ls, comments, rows)
    end.

  (** logfiles.py:311-328; [subset] only prints a warning *)
  Definition get_headers (r : reader) : reader * option (list pystr) :=
    let '(ls, comments, rows) := reader_skip (r_lines r) (r_comments r) (r_comment_rows r) in
    let char := match ls with (c :: _) :: _ => [c] | _ => [] end in
    if isnumeric uninumeric char then (Reader ls comments rows (Some None), None)
    else
      let (headerline, ls') := readline ls in
      let hs := match headerline with [] => None | _ => Some (words uspace headerline) end in
      (Reader ls' comments rows (Some hs), hs).

  (** [Series(data, index)]: a list with as many labels, or numbered *)
  Definition labelled := list (option pystr * pystr).
  Definition series (data : list pystr) (index : option (list pystr)) : result labelled :=
    match index with
    | None => Ok (map (fun x => (None, x)) data)
    | Some hs => if Nat.eqb (length data) (length hs) then Ok (combine (map Some hs) data) else Err ValueError
    end.

  (** logfiles.py:330-335: the whole of [for row in reader]: one row *)
  Definition reader_iter (r : reader) : reader * result (list labelled) :=
    let (line, ls') := readline (r_lines r) in
    let r' := Reader ls' (r_comments r) (r_comment_rows r) (r_file_headers r) in
    (r', match r_file_headers r with
         | None => Err AttributeError
         | Some hs => do s <- series (words uspace line) hs; Ok [s]
         end).

  (** [n] such loops *)
  Fixpoint iterate (n : nat) (r : reader) : reader * result (list labelled) :=
    match n with
    | O => (r, Ok [])
    | S n' =>
        match reader_iter r with
        | (r', Err e) => (r', Err e)
        | (r', Ok rows) => let (r'', x) := iterate n' r' in
                           (r'', do more <- x; Ok (rows ++ more))
        end
    end.

  (** logfiles.py:242-243, the loop *)
  Fixpoint skip_hash (ls : list pystr) : result pystr :=
    match ls with
    | [] => Err IndexError
    | l :: ls' => if is_comment l then skip_hash ls' else Ok l
    end.

  (** logfiles.py:236-259 *)
  Definition check_headers (fs : filesys) (filepath : pystr) (subset : option (list pystr)) : result (list pystr) :=
    do ls <- open_read fs filepath;
    match ls with
    | [] => Ok []
    | _ =>
        do line <- skip_hash ls;
        let file_headers := words uspace line in
        match subset with
        | None | Some [] => Ok file_headers
        | Some needed =>
            Ok (filter (fun h => match split dash h with
                                 | part :: _ => existsb (streq part) needed || existsb (streq h) needed
                                 | [] => existsb (streq h) needed
                                 end) file_headers)
        end
    end.
End reader.
