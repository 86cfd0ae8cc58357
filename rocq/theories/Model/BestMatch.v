(** utilities.py:343-370, 388-404, 1357-1368: the file that has all of the required features. *)
From Verif Require Export Model.Gzip.
Open Scope Z_scope.

(** utilities.py:1357-1368; [ls] is [os.listdir(log_path)] *)
Definition get_all_text_files (ls : list pystr) (keep_extension : bool) : list pystr :=
  flat_map (fun f =>
    let '(fn, ext) := split_ext f in
    if negb (contains_str (lit "txt") ext) then [] else if keep_extension then [f] else [fn]) ls.

(** the argument required_features *)
Inductive features := FOne (s : pystr) | FMany (l : list pystr).

Section best.
  Variable gunz : list Z -> list Z * bool.
  Variable dec : list Z -> option pystr.
  Variable enc : pystr -> option (list Z).
  Context {F : Type} (float_of : pystr -> option F).
  Variable uni : pystr -> option Z.
  Variable uninumeric : pystr -> bool.
  Variable numeq : @item_ F -> @item_ F -> bool.

  (** [set(l)], in the order in which they come in *)
  Definition set_of (l : list (@item_ F)) : list item_ :=
    fold_left (fun s x => if existsb (item_eq numeq x) s then s else s ++ [x]) l [].

  (** utilities.py:388-404; [required] is a set *)
  Definition match_items (required : list (@item_ F)) (potential : pystr) : result Z :=
    do its <- split_items float_of uni uninumeric potential;
    let potential := set_of its in
    Ok (if forallb (fun r => existsb (item_eq numeq r) potential) required
        then Z.of_nat (length potential) - Z.of_nat (length required)
        else -1).

  (** utilities.py:364-370 *)
  Fixpoint best_loop (required : list (@item_ F)) (options : list pystr) (extra_features : Z) (best_match : pystr) : result pystr :=
    match options with
    | [] => Ok best_match
    | o :: options' =>
        do match_ <- match_items required (fst (split_ext o));
        if (0 <? match_) && (match_ <? extra_features) then best_loop required options' match_ o
        else best_loop required options' extra_features best_match
    end.

  (** utilities.py:343-370. [remove_modifiers(required_features)] has one argument: it is split as a string, and a list has no [split].
      [ls] is [os.listdir(base_dir)], None if there is no such directory *)
  Definition get_best_file_match (fs : store) (ls : option (list pystr)) (required_features : features) (base_dir : pystr) : store * result pystr :=
    match required_features with
    | FMany _ => (fs, Err AttributeError)
    | FOne s =>
        let best_match := join_items (UList (map UStr (remove_modifiers [s] false None))) true in
        match split_items float_of uni uninumeric best_match with
        | Err e => (fs, Err e)
        | Ok its =>
            let required := set_of its in
            let best_match := best_match ++ lit ".txt" in
            let '(fs', fe) := file_exists gunz dec enc fs (path_join2 base_dir best_match) true true in
            (fs', match fe with
                  | Err e => Err e
                  | Ok (Some q) => Ok (snd (path_split q))
                  | Ok None =>
                      match ls with
                      | None => Err OSError
                      | Some ls =>
                          match get_all_text_files ls true with
                          | [] => Ok best_match
                          | options => best_loop required options (Z.of_nat (length s) * 10) best_match
                          end
                      end
                  end)
        end
    end.
End best.
