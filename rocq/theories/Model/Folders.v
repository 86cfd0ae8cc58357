(** utilities.py:757-791: making directories. *)
From Verif Require Export Model.PyDict Model.PosixPath.
Open Scope Z_scope.

(** The file system: places, as components from the root, that are directories ([true]) or files. *)
Definition place := list pystr.
Fixpoint place_eq (a b : place) : bool :=
  match a, b with
  | [], [] => true
  | x :: a', y :: b' => streq x y && place_eq a' b'
  | _, _ => false
  end.
Definition folders := list (place * bool).

Section folders.
  (** the current directory, and where it is allowed to make something *)
  Variable cwd : place.
  Variable writable : place -> bool.

  (** The place of a path. Links are not modelled, and two dots go up in the text. *)
  Definition place_of (p : pystr) : option place :=
    match p with
    | [] => None
    | c :: _ => Some (norm_comps true [] (if c =? slash then split slash p else cwd ++ split slash p))
    end.
  (** [os.path.exists] *)
  Definition there (fs : folders) (p : pystr) : bool :=
    match place_of p with Some c => gd_mem place_eq fs c | None => false end.
  (** [os.mkdir]; all its exceptions are OSErrors *)
  Definition mkdir (fs : folders) (p : pystr) : result folders :=
    match place_of p with
    | None => Err OSError
    | Some c =>
        if gd_mem place_eq fs c then Err OSError
        else match gd_get place_eq fs (removelast c) with
             | Some true => if writable (removelast c) then Ok (gd_set place_eq fs c true) else Err OSError
             | _ => Err OSError
             end
    end.

  (** utilities.py:779-791. [None] is False; the fuel is how deep Python may recurse. The path given back by
      the inner call is true, as it is not empty. *)
  Fixpoint make_dirs (fuel : nat) (fs : folders) (dirpath : pystr) : folders * result (option pystr) :=
    match fuel with
    | O => (fs, Err OutOfFuel)
    | S n =>
        if there fs dirpath then (fs, Ok (Some dirpath))
        else match mkdir fs dirpath with
             | Ok fs1 => (fs1, Ok (Some dirpath))
             | Err _ =>
                 let head := fst (path_split dirpath) in
                 if negb (contains [slash] head) || there fs head then (fs, Ok None)
                 else match make_dirs n fs head with
                      | (fs1, Ok (Some _)) => make_dirs n fs1 dirpath
                      | (fs1, Ok None) => (fs1, Ok (Some dirpath))
                      | (fs1, Err e) => (fs1, Err e)
                      end
             end
    end.
End folders.
