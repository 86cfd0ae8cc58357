(** C75: what LogWriter writes and LogReader reads. *)
From Verif Require Export Model.LogFiles Spec.LogSpec.
Open Scope Z_scope.

(** the headers that an argument stands for *)
Inductive names : header_arg -> list pystr -> Prop :=
| names_none : names HNone []
| names_str s : names (HStr s) [s]
| names_list l : names (HList l) l
| names_obj l : names (HObj l) l.

(** the file of a log *)
Definition target (filepath : pystr) (base_dir : option pystr) : pystr :=
  match base_dir with None => filepath | Some b => path_join2 b filepath end.

(** [p] is a file in a directory, which is not a file; in safe mode it must be new *)
Definition writable (fs : filesys) (p : pystr) (safe_mode : bool) : Prop :=
  (exists d n, p = d ++ 47 :: n /\ d <> [] /\ (forall d', d <> d' ++ [47]) /\ n <> [] /\ ~ In 47 n /\ gd_get streq fs d = None) /\
  (safe_mode = true -> gd_get streq fs p = None).

(** words on a line of their own *)
Definition line_of (ws : list pystr) : pystr := join [32] ws ++ [10].

(** what an operation adds to the file [filepath] *)
Definition op_text (filepath : pystr) (o : wop) : pystr :=
  match o with
  | WWrite s => s ++ [10]
  | WList [] => []
  | WList l => line_of l
  | WComment s => [35; 32] ++ s ++ [10]
  | WFrame _ csv => [35; 32] ++ filepath ++ [10] ++ csv
  | WClose => []
  end.

(** an operation that an open writer with [n] headers carries out *)
Definition fits (n : nat) (o : wop) : Prop := match o with WClose => False | WFrame m _ => m = n | _ => True end.

(** what is in the file at first *)
Definition first_text (filepath : pystr) (headers : list pystr) : pystr :=
  [35; 32] ++ filepath ++ [10] ++ match headers with [] => [] | _ => line_of headers end.

(** The data of a log: comments, headers, and rows with a value for every header. A reader takes a
    first header that begins with "#" for a comment, one that begins with a digit for data. *)
Record log_data (uspace : Z -> bool) (uninumeric : pystr -> bool) (filepath : pystr) (comments headers : list pystr) (rows : list (list pystr)) : Prop := {
  ld_path : one_line filepath;
  ld_comments : Forall one_line comments;
  ld_first : exists c h hs, headers = (c :: h) :: hs /\ c <> 35 /\ isnumeric uninumeric [c] = false;
  ld_headers : Forall (wordy uspace) headers;
  ld_rows : Forall (fun row => length row = length headers /\ Forall (wordy uspace) row) rows
}.

(** The two ways to write it: headers given at once, or after some comments. *)
Inductive writes (comments headers : list pystr) (rows : list (list pystr)) : header_arg -> list wop -> Prop :=
| writes_given a : comments = [] -> names a headers -> writes comments headers rows a (map WList rows)
| writes_later a : names a [] -> writes comments headers rows a (map WComment comments ++ WList headers :: map WList rows).

(** the header [h] is asked for: it is in the list, or its part before the first dash is *)
Definition asked (needed : list pystr) (h : pystr) : Prop :=
  In h needed \/ exists part rest, h = part ++ rest /\ ~ In 45 part /\ (rest = [] \/ exists r, rest = 45 :: r) /\ In part needed.

(** The files after a program has opened a log and done something with it, or failed to. *)
Definition session (fs : filesys) filepath base safe a ops : filesys :=
  match log_writer fs filepath base safe a with
  | (fs', Ok w) => fst (fst (wrun fs' w ops))
  | (fs', Err _) => fs'
  end.
