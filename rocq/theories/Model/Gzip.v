(** utilities.py:751-755, 1288-1343: compressed files. *)
From Verif Require Export Model.Dirs.
Open Scope Z_scope.

(** Files and their bytes; directories are not modelled. *)
Definition store := pystr -> option (list Z).
Definition put (fs : store) (p : pystr) (b : option (list Z)) : store := fun q => if streq p q then b else fs q.

(** the lines of a binary file, each with its newline *)
Fixpoint byte_lines (b : list Z) : list (list Z) :=
  match b with
  | [] => []
  | c :: b' =>
      if c =? 10 then [c] :: byte_lines b'
      else match byte_lines b' with
           | [] => [[c]]
           | l :: ls => (c :: l) :: ls
           end
  end.

Section gzip.
  (** what gzip writes for some bytes; what can be read of some bytes before the end (true) or an
      error (OSError, EOFError or zlib.error; all are OSError here) *)
  Variable gz : list Z -> list Z.
  Variable gunz : list Z -> list Z * bool.
  (** [line.decode()] followed by writing to a text file; the first [None] is UnicodeDecodeError, the
      second UnicodeEncodeError *)
  Variable dec : list Z -> option pystr.
  Variable enc : pystr -> option (list Z).

  (** utilities.py:1300-1301; [out] is what was written before *)
  Fixpoint copy_lines (out : list Z) (ls : list (list Z)) : list Z * result unit :=
    match ls with
    | [] => (out, Ok tt)
    | l :: ls' =>
        match dec l with
        | None => (out, Err ValueError)
        | Some s => match enc s with
                    | None => (out, Err ValueError)
                    | Some b => copy_lines (out ++ b) ls'
                    end
        end
    end.

  (** utilities.py:1321-1343 as it is called in lines 1303 and 1316: of a path that is there *)
  Definition file_there (fs : store) (p : pystr) : bool := match fs p with Some _ => true | None => false end.

  (** utilities.py:1288-1305 *)
  Definition unzip (fs : store) (filepath : pystr) (cleanup : bool) : store * result pystr :=
    let '(uzfile, ext) := splitext filepath in
    if negb (streq ext (lit ".gz")) then (fs, Ok filepath)
    else match fs uzfile with
         | Some _ => (fs, Ok uzfile)
         | None =>
             match fs filepath with
             | None => (fs, Err OSError)
             | Some packed =>
                 let '(data, whole) := gunz packed in
                 let '(out, r) := copy_lines [] (byte_lines data) in
                 let fs1 := put fs uzfile (Some out) in
                 match r with
                 | Err e => (fs1, Err e)
                 | Ok _ => if whole then (if cleanup && file_there fs1 uzfile then put fs1 filepath None else fs1, Ok uzfile)
                           else (fs1, Err OSError)
                 end
             end
         end.

  (** utilities.py:1307-1318 *)
  Definition zipfile (fs : store) (filepath : pystr) (cleanup : bool) : store * result pystr :=
    let zfile := filepath ++ lit ".gz" in
    match fs filepath with
    | None => (fs, Err OSError)
    | Some b =>
        let fs1 := put fs zfile (Some (gz b)) in
        (if cleanup && file_there fs1 zfile then put fs1 filepath None else fs1, Ok zfile)
    end.

  (** utilities.py:1321-1343 without [make_dir]; the inner [None] is False or None *)
  Definition file_exists (fs : store) (filepath : pystr) (check_zip unzip_file : bool) : store * result (option pystr) :=
    match filepath with
    | [] => (fs, Ok None)
    | _ =>
        if file_there fs filepath then (fs, Ok (Some filepath))
        else if streq (snd (splitext filepath)) (lit ".gz") && file_there fs (fst (splitext filepath)) then (fs, Ok (Some (fst (splitext filepath))))
        else if check_zip then
          let zfile := filepath ++ lit ".gz" in
          if file_there fs zfile then
            if unzip_file then let '(fs', r) := unzip fs zfile false in (fs', do q <- r; Ok (Some q))
            else (fs, Ok (Some zfile))
          else (fs, Ok None)
        else (fs, Ok None)
    end.
End gzip.
