(** utilities.py:733-755, 986-1080, 1093-1289, 1321-1345: log files with space-separated columns. *)
From Verif Require Export Model.UtilNames Model.PosixPath.
Open Scope Z_scope.

Definition hash : Z := 35.
Definition nl : Z := 10.
Definition sp : Z := 32.

(** A text file opened for reading: the text with "\r\n" and "\r" read as "\n". *)
Fixpoint universal (s : pystr) : pystr :=
  match s with
  | [] => []
  | c :: s' =>
      if c =? 13 then nl :: (match s' with d :: s'' => if d =? nl then universal s'' else universal s' | [] => [] end)
      else c :: universal s'
  end.

(** The lines of a text, each with its newline; the last one may have none. [cur] is the current
    line so far, reversed. *)
Fixpoint lines_aux (cur s : pystr) : list pystr :=
  match s with
  | [] => match cur with [] => [] | _ => [rev cur] end
  | c :: s' => if c =? nl then rev (c :: cur) :: lines_aux [] s' else lines_aux (c :: cur) s'
  end.

(** [f.readlines()]; a file pointer is the list of lines not read yet, [f.readline()] takes the first
    one and gives [''] at the end of the file. *)
Definition text_lines (s : pystr) : list pystr := lines_aux [] (universal s).
Definition readline (fp : list pystr) : pystr * list pystr :=
  match fp with [] => ([], []) | l :: fp' => (l, fp') end.

Definition is_comment (l : pystr) : bool := match l with c :: _ => c =? hash | [] => false end.

(** Files by their path. All directories exist. *)
Definition filesys := list (pystr * pystr).

Section logs.
  (** what Python takes for white space beyond ASCII *)
  Variable uspace : Z -> bool.
  (** numbers and [float(s)], [None] is ValueError; also the conversion done by [np.array(..., dtype)] *)
  Context {F : Type} (float_of : pystr -> option F).
  (** [int(s)], [None] is ValueError *)
  Variable int_of : pystr -> option Z.
  (** The lines of a gzipped file, decoded; [None] if it is none. *)
  Variable gunzip : pystr -> option (list pystr).

  Definition space (c : Z) : bool := if c <? 128 then is_space c else uspace c.

  (** [s.split()] *)
  Fixpoint words_aux (cur s : pystr) : list pystr :=
    match s with
    | [] => match cur with [] => [] | _ => [rev cur] end
    | c :: s' =>
        if space c then match cur with [] => words_aux [] s' | _ => rev cur :: words_aux [] s' end
        else words_aux (c :: cur) s'
    end.
  Definition words (s : pystr) : list pystr := words_aux [] s.

  (** [str.strip(s)] *)
  Fixpoint lstrip_s (s : pystr) : pystr :=
    match s with [] => [] | c :: s' => if space c then lstrip_s s' else s end.
  Definition strip_s (s : pystr) : pystr := rev (lstrip_s (rev (lstrip_s s))).

  (** utilities.py:986-1011, on an open file *)
  Fixpoint read_strings (fp : list pystr) : option (list pystr) * list pystr :=
    match fp with
    | [] => (None, [])
    | l :: fp' => if is_comment l then read_strings fp' else (Some (words l), fp')
    end.

  (** [[float(x) for x in data]], [None] if one raises *)
  Fixpoint floats_of (l : list pystr) : option (list F) :=
    match l with
    | [] => Some []
    | x :: l' => match float_of x, floats_of l' with Some f, Some fs => Some (f :: fs) | _, _ => None end
    end.

  (** utilities.py:1031-1050; every call reads a line, so the number of lines left bounds the depth.
      [Err OutOfFuel] does not happen. *)
  Fixpoint read_floats (fuel : nat) (fp : list pystr) : result (option (list F) * list pystr) :=
    match fuel with
    | O => Err OutOfFuel
    | S fuel' =>
        match read_strings fp with
        | (None, fp') | (Some [], fp') => Ok (None, fp')
        | (Some data, fp') =>
            match floats_of data with
            | Some fs => Ok (Some fs, fp')
            | None => read_floats fuel' fp'
            end
        end
    end.

  (** utilities.py:1024-1027, the loop; a list of floats is true unless empty *)
  Fixpoint count_floats (fuel : nat) (fp : list pystr) (count : Z) : result Z :=
    match fuel with
    | O => Err OutOfFuel
    | S fuel' =>
        do (r, fp') <- read_floats (S (length fp)) fp;
        match r with
        | None | Some [] => Ok count
        | Some _ => count_floats fuel' fp' (count + 1)
        end
    end.

  (** utilities.py:751-755 *)
  Definition is_zip (p : pystr) : bool := streq (path_ext p) (lit ".gz").

  (** utilities.py:1321-1345 with the default flags; only whether the result is true matters to the
      callers *)
  Definition file_exists (fs : filesys) (p : pystr) : bool :=
    match p with
    | [] => false
    | _ => gd_mem streq fs p ||
           (is_zip p && gd_mem streq fs (firstn (length p - length (path_ext p)) p))
    end.

  (** [open(p, 'r')] *)
  Definition open_read (fs : filesys) (p : pystr) : result (list pystr) :=
    match gd_get streq fs p with Some t => Ok (text_lines t) | None => Err OSError end.

  (** [gzip.open(p, 'rb')] and reading it *)
  Definition open_gz (fs : filesys) (p : pystr) : result (list pystr) :=
    match gd_get streq fs p with
    | Some t => match gunzip t with Some ls => Ok ls | None => Err OSError end
    | None => Err OSError
    end.

  (** utilities.py:1013-1029 *)
  Definition num_data_lines (fs : filesys) (p : pystr) : result Z :=
    if file_exists fs p then
      do ls <- open_read fs p;
      count_floats (S (length ls)) ls 0
    else Ok (-1).

  (** utilities.py:1069-1077, the loop *)
  Fixpoint header_loop (fp : list pystr) : list pystr :=
    match fp with
    | [] => []
    | l :: fp' => if is_comment l then header_loop fp'
                  else match words l with [] => header_loop fp' | h => h end
    end.

  (** utilities.py:1052-1080; [None] when the file cannot be opened *)
  Definition get_header_list (fs : filesys) (p : pystr) (sort_ : bool) : result (option (list pystr)) :=
    match gd_get streq fs p with
    | None => Ok None
    | Some _ =>
        do ls <- (if is_zip p then open_gz fs p else open_read fs p);
        let headers := header_loop ls in
        Ok (Some (if sort_ then sort strle headers else headers))
    end.

  (** utilities.py:733-734 from the index [i] *)
  Fixpoint indices_from (i : nat) (l : list pystr) (d : list (pystr * nat)) : list (pystr * nat) :=
    match l with [] => d | h :: l' => indices_from (S i) l' (gd_set streq d h i) end.
  Definition get_indices (l : list pystr) : list (pystr * nat) := indices_from 0 l [].

  (** utilities.py:1093-1098 *)
  Definition get_header_indices (fs : filesys) (p : pystr) : result (list (pystr * nat)) :=
    do h <- get_header_list fs p false;
    match h with Some headers => Ok (get_indices headers) | None => Err TypeError end.

  (** utilities.py:1100-1123, the loop; the lines left are where the file pointer is put back to *)
  Fixpoint skip_comments (fp : list pystr) : result (list pystr * list pystr) :=
    match fp with
    | [] => Err GeneralException
    | l :: fp' =>
        match l with
        | [] => Err GeneralException
        | _ => if is_comment l then do (cs, fp'') <- skip_comments fp'; Ok (l :: cs, fp'') else Ok ([], fp)
        end
    end.

  (** One value of get_formatted_data: utilities.py:1141-1150 *)
  Inductive datum := DFloat (f : F) | DInt (n : Z) | DStr (s : pystr).
  Definition format_datum (s : pystr) : datum :=
    if has_char dot s then match float_of s with Some f => DFloat f | None => DStr s end
    else match int_of s with Some n => DInt n | None => DStr s end.

  (** utilities.py:1125-1152; an index [None] gives a blank *)
  Definition get_formatted_data (line : pystr) (indices : option (list (option Z))) : result (list datum) :=
    let file_data := split sp (strip_s line) in
    let cols := match indices with
                | Some l => l
                | None => map (fun i => Some (Z.of_nat i)) (seq 0 (length file_data))
                end in
    mapM (fun c => match c with
                   | Some i => do d <- py_get file_data i; Ok (format_datum d)
                   | None => Ok (format_datum [sp])
                   end) cols.

  (** A column: converted, or the texts when np.array refused. *)
  Inductive column := CNum (l : list F) | CText (l : list pystr).
  Inductive log_data := LFalse | LArray (l : list F) | LDict (d : list (pystr * column)).

  (** utilities.py:1182-1195, the loop over the lines: comments, the last headers, the lines counted;
      [None] is [return False] *)
  Fixpoint scan (ls : list pystr) (comments : list pystr) (headers : option (list pystr)) (lcount : nat)
    : option (list pystr * option (list pystr) * nat) :=
    match ls with
    | [] => Some (comments, headers, lcount)
    | notes :: ls' =>
        match notes with
        | [] => None
        | c :: _ =>
            if streq notes [nl] then scan ls' comments headers lcount
            else
              let comments' := if c =? hash then comments ++ [strip_s (skipn 2 notes)] else comments in
              if c =? hash then scan ls' comments' (Some (words notes)) (S lcount)
              else Some (comments', Some (words notes), S lcount)
        end
    end.

  (** utilities.py:1197-1200 *)
  Definition clean_indices (headers : list pystr) (d : list (pystr * nat)) : result (list (pystr * nat)) :=
    fold_left (fun rd h => do d <- rd; do i <- gd_lookup streq d h; Ok (gd_set streq d (uclean h) i)) headers (Ok d).

  (** utilities.py:1202-1209: [data] with empty columns, and the valid headers *)
  Definition pick (indices : list (pystr * nat)) (subset : list pystr) (data : list (pystr * list pystr))
    : list (pystr * list pystr) * list pystr :=
    fold_left (fun st k => let '(data, valid) := st in
                 if gd_mem streq indices k then (gd_set streq data k [], valid ++ [k]) else st)
              subset (data, []).

  (** utilities.py:1214-1215: the columns of one line *)
  Definition store (indices : list (pystr * nat)) (content valid : list pystr) (data : list (pystr * list pystr))
    : result (list (pystr * list pystr)) :=
    fold_left (fun rd k => do data <- rd;
                 do i <- gd_lookup streq indices k;
                 do x <- py_get content (Z.of_nat i);
                 Ok (gd_append streq data k x)) valid (Ok data).

  (** utilities.py:1211-1215 *)
  Definition store_all (indices : list (pystr * nat)) (valid : list pystr) (ls : list pystr)
    (data : list (pystr * list pystr)) : result (list (pystr * list pystr)) :=
    fold_left (fun rd l => do data <- rd; store indices (words l) valid data) ls (Ok data).

  (** utilities.py:1217-1229 *)
  Definition convert (data : list (pystr * list pystr)) (valid : list pystr) (keep_comments : bool) : result log_data :=
    match valid with
    | [k] => do col <- gd_lookup streq data k;
             match floats_of col with Some fs => Ok (LArray fs) | None => Err ValueError end
    | _ =>
        let data := if keep_comments then data else gd_pop streq data (lit "comments") in
        Ok (LDict (map (fun kv : pystr * list pystr => let '(k, col) := kv in
             if existsb (streq k) valid
             then (k, match floats_of col with Some fs => CNum fs | None => CText col end)
             else (k, CText col)) data))
    end.

  (** utilities.py:1155-1229 without binsize *)
  Definition get_log_data (fs : filesys) (p : pystr) (subset : option (list pystr)) (keep_comments : bool)
    : result log_data :=
    do subset <- match subset with Some l => Ok (Some l) | None => get_header_list fs p true end;
    if negb (file_exists fs p) then Ok (LDict []) else
    do ls <- (if contains (lit "gz") p then open_gz fs p else open_read fs p);
    match scan ls [] None 0 with
    | None => Ok LFalse
    | Some (_, None, _) => Err NameError
    | Some (comments, Some headers, lcount) =>
        do indices <- clean_indices headers (get_indices headers);
        match subset with
        | None => Err TypeError
        | Some subset =>
            let '(data, valid) := pick indices subset [(lit "comments", comments)] in
            do data <- store_all indices valid (skipn lcount ls) data;
            convert data valid keep_comments
        end
    end.

  (** What save_log_data stores; [str] is Python's. *)
  Section save.
  Context {V : Type} (str : V -> pystr).

  (** utilities.py:1285-1288: one line after the other; what was written stays when one raises *)
  Definition row (i : nat) (keys : list pystr) (data : list (pystr * list V)) : result (list pystr) :=
    mapM (fun k => do col <- gd_lookup streq data k; do v <- py_get col (Z.of_nat i); Ok (str v)) keys.
  Fixpoint write_rows (is_ : list nat) (keys : list pystr) (data : list (pystr * list V)) (out : pystr)
    : pystr * result unit :=
    match is_ with
    | [] => (out, Ok tt)
    | i :: is' =>
        match row i keys data with
        | Ok d => write_rows is' keys data (out ++ join [sp] d ++ [nl])
        | Err e => (out, Err e)
        end
    end.

  (** utilities.py:1277-1280 *)
  Fixpoint write_notes (notes : list pystr) (out : pystr) : pystr * result unit :=
    match notes with
    | [] => (out, Ok tt)
    | n :: notes' =>
        match n with
        | [] => (out, Err IndexError)
        | c :: _ => write_notes notes' (out ++ (if c =? hash then [] else lit "# ") ++ strip_s n ++ [nl])
        end
    end.

  (** utilities.py:1262-1289: the files afterwards, and the result *)
  Definition save_log_data (fs : filesys) (p : pystr) (data : list (pystr * list V)) (notes : list pystr)
    : filesys * result pystr :=
    let keys := sort strle (map fst data) in
    match (do k <- py_get keys 0; do col <- gd_lookup streq data k; Ok (length col)) with
    | Err e => (fs, Err e)
    | Ok num_points =>
        let (out, r) := write_notes notes (lit "# " ++ p ++ [nl]) in
        match r with
        | Err e => (gd_set streq fs p out, Err e)
        | Ok _ =>
            let (out, r) := write_rows (seq 0 num_points) keys data (out ++ join [sp] keys ++ [nl]) in
            (gd_set streq fs p out, match r with Ok _ => Ok p | Err e => Err e end)
        end
    end.
  End save.

  (** [str] of a number *)
  Variable float_str : F -> pystr.
  (** the elements of a column *)
  Inductive cell := KNum (f : F) | KText (s : pystr).
  Definition cell_str (c : cell) : pystr := match c with KNum f => float_str f | KText s => s end.
  Definition cells (c : column) : list cell :=
    match c with CNum l => map KNum l | CText l => map KText l end.

  (** [comments = data.pop('comments')]: the rest and the comments. Notes that are numbers cannot be
      indexed, which is noticed here before the file is opened, not after. *)
  Definition pop_comments (d : log_data) : result (list (pystr * column) * list pystr) :=
    match d with
    | LDict d =>
        match gd_get streq d (lit "comments") with
        | Some (CText notes) => Ok (gd_pop streq d (lit "comments"), notes)
        | Some (CNum _) => Err TypeError
        | None => Err KeyError
        end
    | LArray _ | LFalse => Err AttributeError
    end.

  (** utilities.py:1231-1235 *)
  Definition get_snippets (fs : filesys) (infile outfile : pystr) (start len : Z) (headers : option (list pystr))
    : filesys * result pystr :=
    match (do data <- get_log_data fs infile headers false; pop_comments data) with
    | Err e => (fs, Err e)
    | Ok (data, comments) =>
        let new_data := map (fun kv : pystr * column =>
                               let col := cells (snd kv) in
                               (fst kv, skipn (slice_start col start) (slice_to col (start + len)))) data in
        save_log_data cell_str fs outfile new_data comments
    end.

  (** utilities.py:1242-1260 for a directory that has the file: [filename] is [dir_path]'s
      raw-data.txt; without the file the function goes through the subdirectories, which is not
      modelled. *)
  Definition simplify_log (fs : filesys) (filename : pystr) (headers : list pystr) : filesys * result unit :=
    match get_header_list fs filename false with
    | Err e => (fs, Err e)
    | Ok None => (fs, Err TypeError)
    | Ok (Some hs) =>
        if Nat.eqb (length headers) (length hs) then (fs, Ok tt) else
        match (do data <- get_log_data fs filename (Some headers) false; pop_comments data) with
        | Err e => (fs, Err e)
        | Ok (data, notes) =>
            let (fs', r) := save_log_data cell_str fs filename
                              (map (fun kv : pystr * column => (fst kv, cells (snd kv))) data) notes in
            (fs', match r with Ok _ => Ok tt | Err e => Err e end)
        end
    end.
End logs.
