(** helpers.py:295-326 and logfiles.py:452-522: numbers at the end of names, and the headers of log files. *)
From Verif Require Export Model.FileNames Model.PosixPath.
Open Scope Z_scope.

Section headers.
  (** see Model/FileNames.v; [to_str] is [str] of a value *)
  Variable literal_eval : pystr -> option pval.
  Variable uni : pystr -> option Z.
  Variable uninumeric : pystr -> bool.
  Variable to_str : pval -> pystr.
  Notation numeric c := (isnumeric uninumeric [c]).

  (** helpers.py:317-319: [s] is the text from its end; the characters passed, in order, and the rest *)
  Fixpoint number_end (s : pystr) (passed : pystr) : result (pystr * pystr) :=
    match s with
    | [] => Err IndexError
    | c :: s' => if numeric c || (c =? dot) then number_end s' (c :: passed) else Ok (passed, s)
    end.

  (** helpers.py:295-326; the number is None, or what de_string gives *)
  Definition de_number (value : pystr) : result (pystr * option pval) :=
    match rev value with
    | [] => Err IndexError
    | c :: _ =>
        if negb (numeric c) then Ok (value, None)
        else
          do (digits, rest) <- number_end (rev value) [];
          let prefix := match rest with d :: rest' => if d =? dash then rev rest' else rev rest | [] => [] end in
          do suffix <- de_string literal_eval uni uninumeric digits;
          Ok (prefix, Some suffix)
    end.

  (** logfiles.py:503-519, the loop; [columns] is [contents.columns] *)
  Fixpoint match_headers (columns : list pystr) (subset newsubset : list pystr) : result (list pystr) :=
    match subset with
    | [] => Ok newsubset
    | s :: subset' =>
        if existsb (streq s) columns then match_headers columns subset' (newsubset ++ [s])
        else
          do (prefix, suffix) <- de_number s;
          if existsb (streq prefix) columns && negb (existsb (streq prefix) newsubset) then match_headers columns subset' (newsubset ++ [prefix])
          else
            let array_string := prefix ++ lit "[" ++ match suffix with Some v => to_str v | None => lit "None" end ++ lit "]" in
            if existsb (streq array_string) columns then match_headers columns subset' (newsubset ++ [array_string])
            else match_headers columns subset' newsubset
    end.

  (** logfiles.py:484-522; [columns] is what pandas reads, None if it raises IndexError *)
  Definition get_headers (columns : option (list pystr)) (subset : list pystr) : result (list pystr) :=
    match columns with
    | None => Ok []
    | Some columns => match subset with [] => Ok columns | _ => match_headers columns subset [] end
    end.

  (** logfiles.py:452-482. [there] tells that the file exists. The name [rh] of line 475 and the function [comment_length] of line 529
      are not defined. A Warning is a GeneralException here. *)
  Definition file_complete (filepath : pystr) (there : bool) (columns : option (list pystr)) (req_lines : Z) (req_headers : list pystr) (exception : bool) : result bool :=
    match filepath with
    | [] => if exception then Err ValueError else Ok false
    | _ =>
        if negb there then if exception then Err OSError else Ok false
        else
          do found <- (match req_headers with
                       | [] => Ok true
                       | _ => do headers <- get_headers columns req_headers; Ok (match headers with [] => false | _ => true end)
                       end);
          if negb found then if exception then Err NameError else Ok false
          else if negb (req_lines =? 0) then Err NameError
          else Ok true
    end.
End headers.
