(** logfiles.py:54-72: the files of a directory tree. *)
From Verif Require Export Model.PyStr Model.PosixPath.
Open Scope Z_scope.

(** A directory: the files in it, and the directories in it with their names, in the order in which the system lists them. Links and
    directories that cannot be read are not modelled. *)
Inductive tree := Tree (files : list pystr) (dirs : list (pystr * tree)).

(** [os.walk(dirpath)]: the path of each directory and the files in it *)
Fixpoint walk (dirpath : pystr) (t : tree) : list (pystr * list pystr) :=
  match t with
  | Tree files dirs =>
      (dirpath, files) ::
      (fix walks (ds : list (pystr * tree)) : list (pystr * list pystr) :=
         match ds with
         | [] => []
         | (d, t') :: ds' => walk (path_join2 dirpath d) t' ++ walks ds'
         end) dirs
  end.

(** [paths.remove(p)] with [suppress(ValueError)] *)
Fixpoint remove_path (p : pystr) (l : list pystr) : list pystr :=
  match l with
  | [] => []
  | q :: l' => if streq p q then l' else q :: remove_path p l'
  end.

(** logfiles.py:62-68, the body of the loop *)
Definition found (filename : pystr) (partial : bool) (dirpath : pystr) (filenames : list pystr) : list pystr :=
  if existsb (streq filename) filenames then [path_join2 dirpath filename]
  else if partial then map (path_join2 dirpath) (filter (contains filename) filenames)
  else [].

(** logfiles.py:54-72; there is no directory if [t] is None. [ignore_files] is a list, [confirm_files] is not used by the code *)
Definition get_filepaths (base_dir : pystr) (t : option tree) (filename : pystr) (partial : bool) (ignore_files : list pystr) : list pystr :=
  let dirs := match t with Some t => walk base_dir t | None => [] end in
  let paths := flat_map (fun d => found filename partial (fst d) (snd d)) dirs in
  fold_left (fun paths p => remove_path p paths) ignore_files paths.
