(** environments.py:378-414, 505-535 and 632-648: the headers and filters of FileEnvironment. *)
From Verif Require Export Model.PyStr Model.PyDict.
Open Scope Z_scope.

(** The functions made by get_file_filters. The one for 'scaled' is a lambda that looks up the
    variable [header] of get_file_filters when it is called. *)
Inductive ffilter := FRollmean | FScaled | FUnitvect.

(** environments.py:394-412, one filter; [None] for a name that is skipped. For 'return' the names
    gamma and horizon are not bound. *)
Definition make_filter (ftr : pystr) : result (option ffilter) :=
  match ftr with
  | [] => Ok None
  | _ =>
      if streq ftr (lit "rollmean") then Ok (Some FRollmean)
      else if streq ftr (lit "trace") then Err NotImplementedError
      else if streq ftr (lit "return") then Err NameError
      else if streq ftr (lit "scaled") then Ok (Some FScaled)
      else if streq ftr (lit "unitvect") then Ok (Some FUnitvect)
      else Err ValueError
  end.

Fixpoint make_filters (filtrs : list pystr) : result (list ffilter) :=
  match filtrs with
  | [] => Ok []
  | f :: fs =>
      do x <- make_filter f;
      do xs <- make_filters fs;
      Ok (match x with Some y => y :: xs | None => xs end)
  end.

(** environments.py:378-414: the dictionary, and the value the variable [header] is left with. The
    keys of [kwargs] are distinct; the parameters popped off are kept apart. *)
Fixpoint get_file_filters (kwargs : list (pystr * list pystr)) (header : option pystr)
  : result (list (pystr * list ffilter) * option pystr) :=
  match kwargs with
  | [] => Ok ([], header)
  | (h, filtrs) :: kwargs' =>
      do fs <- make_filters filtrs;
      do (ff, last) <- get_file_filters kwargs' (Some h);
      Ok ((h, fs) :: ff, last)
  end.

Section filters.
  (** columns of data, ranges, and what the functions do to columns: the rolling mean with the given
      window, [(x - lo) / hi] for a range and the unit vectors for the given number of classes *)
  Context {Column Range : Type}.
  Variable rollmean unitvect : Column -> result Column.
  Variable scale : Range -> Column -> result Column.
  (** the parameter [ranges] *)
  Variable ranges : option (list (pystr * Range)).

  Definition apply_filter (header : option pystr) (f : ffilter) (c : Column) : result Column :=
    match f with
    | FRollmean => rollmean c
    | FUnitvect => unitvect c
    | FScaled =>
        match header with
        | None => Err NameError
        | Some h =>
            match ranges with
            | None => Err TypeError
            | Some r => match gd_get streq r h with
                        | None => Err KeyError
                        | Some g => scale g c
                        end
            end
        end
    end.

  Fixpoint apply_filters (header : option pystr) (fs : list ffilter) (c : Column) : result Column :=
    match fs with
    | [] => Ok c
    | f :: fs' => do c' <- apply_filter header f c; apply_filters header fs' c'
    end.

  (** environments.py:632-648: _filter_data_block; [data_filters] is a defaultdict(list) *)
  Definition filter_data_block (data_filters : list (pystr * list ffilter)) (header : option pystr)
      (mapping : list (pystr * pystr)) (data : list (pystr * Column)) : result (list (pystr * Column)) :=
    mapM (fun '(h, c) =>
      let name := match gd_get streq mapping h with Some p => p | None => h end in
      let fs := match gd_get streq data_filters name with Some fs => fs | None => [] end in
      do c' <- apply_filters header fs c; Ok (h, c')) data.
End filters.
