(** C91: the files with a name in a directory tree. *)
From Verif Require Import Spec.WalkSpec Proofs.WalkFacts.
Open Scope Z_scope.

(** get_filepaths gives the path of exactly the files of that name below the directory, at any depth, but those to ignore, *)
Theorem C91_exact : forall base t name ignore p, sound t -> In p (get_filepaths base (Some t) name false ignore) <->
  (exists cs, has_file t cs name /\ p = path_join base (cs ++ [name])) /\ ~ In p ignore.
Proof. exact paths_exact. Qed.
Print Assumptions C91_exact.

(** with partial=True also of those with the name as a part of theirs, in directories without a file of that name, *)
Theorem C91_part_partial : forall base t name ignore p, sound t -> In p (get_filepaths base (Some t) name true ignore) <->
  (exists cs f, has_file t cs f /\ (exists s s', f = s ++ name ++ s') /\ (f = name \/ ~ has_file t cs name) /\ p = path_join base (cs ++ [f])) /\ ~ In p ignore.
Proof. exact paths_part. Qed.
Print Assumptions C91_part_partial.

(** and each of them once. *)
Theorem C91_once : forall base t name partial ignore, sound t -> NoDup (get_filepaths base (Some t) name partial ignore).
Proof. exact paths_once. Qed.
Print Assumptions C91_once.
(** Different files have different paths. *)
Theorem C91_paths : forall base cs ds, Forall plain cs -> Forall plain ds -> cs <> [] -> ds <> [] -> path_join base cs = path_join base ds -> cs = ds.
Proof. exact join_inj. Qed.
Print Assumptions C91_paths.
(** There are none if there is no directory. *)
Theorem C91_none : forall base name partial ignore, get_filepaths base None name partial ignore = [].
Proof. exact paths_none. Qed.
Print Assumptions C91_none.

Definition ex_tree := Tree [lit "x.txt"; lit "p.txt"] [(lit "b", Tree [lit "p.txt"; lit "old-p.txt"] [(lit "c", Tree [lit "p.txt.gz"] [])]); (lit "d", Tree [lit "p.txt"] [])].
Example C91_ex : sound ex_tree /\ has_file ex_tree [lit "b"] (lit "p.txt") /\ has_file ex_tree [lit "b"; lit "c"] (lit "p.txt.gz") /\
  get_filepaths (lit "/a") (Some ex_tree) (lit "p.txt") false [lit "/a/d/p.txt"] = [lit "/a/p.txt"; lit "/a/b/p.txt"] /\
  get_filepaths (lit "/a") (Some ex_tree) (lit "p.txt") true [lit "/a/d/p.txt"] = [lit "/a/p.txt"; lit "/a/b/p.txt"; lit "/a/b/c/p.txt.gz"].
Proof.
  split; [|split; [apply there with (Tree [lit "p.txt"; lit "old-p.txt"] [(lit "c", Tree [lit "p.txt.gz"] [])]); [now left|constructor; now left]|split; [|split; vm_compute; reflexivity]]].
  - repeat constructor; cbv; intuition discriminate.
  - eapply there; [now left|]. eapply there; [now left|]. constructor. now left.
Qed.

(** A file of exactly that name hides the others in its directory, *)
Theorem C91_hidden_refuted : forall base cs name f t p, sound t -> has_file t cs name -> has_file t cs f -> f <> name -> p = path_join base (cs ++ [f]) ->
  ~ In p (get_filepaths base (Some t) name true []).
Proof. exact hidden. Qed.
Print Assumptions C91_hidden_refuted.
Theorem C91_hidden_ex_refuted : let t := Tree [lit "log.txt"; lit "log.txt.gz"] [(lit "b", Tree [lit "log.txt.gz"] [])] in
  get_filepaths (lit "a") (Some t) (lit "log.txt") true [] = [lit "a/log.txt"; lit "a/b/log.txt.gz"].
Proof. exact hidden_ex. Qed.
Print Assumptions C91_hidden_ex_refuted.
(** and a file to ignore is listed if its path is written in another way. *)
Theorem C91_ignore_refuted : get_filepaths (lit "a/") (Some (Tree [lit "f"] [])) (lit "f") false [lit "a//f"] = [lit "a/f"].
Proof. exact same_text. Qed.
Print Assumptions C91_ignore_refuted.
