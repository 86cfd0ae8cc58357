(** utilities.py:373-386, 480-519, 793-807: the parts of a path, and the headers of an array. *)
From Verif Require Export Model.UtilNames Model.PosixPath.
Open Scope Z_scope.

(** [s.split(sep)] for a separator that is not empty; [skip] is how much of the last one is left *)
Fixpoint split_sub (sep : pystr) (skip : nat) (word : pystr) (s : pystr) : list pystr :=
  match s with
  | [] => [rev word]
  | a :: s' =>
      match skip with
      | S k => split_sub sep k word s'
      | O => if is_prefix sep s then rev word :: split_sub sep (length sep - 1) [] s'
             else split_sub sep 0 (a :: word) s'
      end
  end.
Definition split_by (sep s : pystr) : list pystr := split_sub sep 0 [] s.

(** utilities.py:513-518 *)
Fixpoint tails (fuel : nat) (post : pystr) (dirs : list pystr) : result (list pystr) :=
  match fuel with
  | O => Err OutOfFuel
  | S n => match path_split post with
           | (_, []) => Ok dirs
           | (head, tail) => tails n head (tail :: dirs)
           end
  end.
Definition all_tails (post : pystr) : result (list pystr) := tails (S (length post)) post [].

(** utilities.py:480-519; the outer [None] is None *)
Definition get_all_dirs (dirpath : pystr) (base_dir : option pystr) : result (option (list pystr)) :=
  match base_dir with
  | None | Some [] => do l <- all_tails (normpath dirpath); Ok (Some l)
  | Some b =>
      if contains b dirpath then
        match split_by (normpath b) dirpath with
        | [_; post] => do l <- all_tails (normpath post); Ok (Some l)
        | _ => Err ValueError
        end
      else Ok None
  end.

(** [os.path.splitext] *)
Definition splitext (p : pystr) : pystr * pystr := (firstn (length p - length (path_ext p)) p, path_ext p).
(** utilities.py:373-386 *)
Definition split_ext (filepath : pystr) : pystr * pystr :=
  let '(fn, ext) := splitext filepath in
  if streq ext (lit ".gz") then let '(fn, ext) := splitext fn in (fn, ext ++ lit ".gz") else (fn, ext).

(** [s.zfill(width)] of a string without a sign *)
Definition zfill (width : nat) (s : pystr) : pystr := repeat 48 (width - length s) ++ s.
(** utilities.py:793-807 *)
Definition get_array_headers (array_name : pystr) (length_ : Z) : list pystr :=
  let width := length (str_of_int length_) in
  map (fun i => join_items (UList [UStr array_name; UStr (zfill width (str_of_int (Z.of_nat i)))]) false) (seq 0 (Z.to_nat length_)).
