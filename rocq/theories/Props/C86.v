(** C86: making directories. *)
From Verif Require Import Spec.FoldersSpec Proofs.FoldersFacts.
Open Scope Z_scope.

(** A path from the root: all directories on the way are made, nothing else, and the path is given back. *)
Theorem C86_creates_partial : forall cwd writable cs fs fuel, tree fs -> Forall plain cs -> (forall d, on_way cs d -> writable d = true) ->
  (forall d b, on_way cs d -> gd_get place_eq fs d = Some b -> b = true) -> (length cs < fuel)%nat ->
  exists fs2, make_dirs cwd writable fuel fs (path_text true cs) = (fs2, Ok (Some (path_text true cs))) /\ tree fs2 /\
    (forall d, on_way cs d -> gd_get place_eq fs2 d = Some true) /\ (forall d, ~ on_way cs d -> gd_get place_eq fs2 d = gd_get place_eq fs d).
Proof. exact creates. Qed.
Print Assumptions C86_creates_partial.

Definition tmp : folders := [([], true); ([lit "tmp"], true); ([lit "tmp"; lit "notes"], false)].
Example C86_creates_ex : tree tmp /\ path_text true [lit "tmp"; lit "asdf"; lit "fred"] = lit "/tmp/asdf/fred" /\
  make_dirs [lit "tmp"] (fun _ => true) 4 tmp (lit "/tmp/asdf/fred") =
    (tmp ++ [([lit "tmp"; lit "asdf"], true); ([lit "tmp"; lit "asdf"; lit "fred"], true)], Ok (Some (lit "/tmp/asdf/fred"))).
Proof.
  split; [|split; vm_compute; reflexivity]. split; [reflexivity|]. intros c x H. apply mem_get in H as [v H].
  apply (DictFacts.get_in place_eq place_eq_spec) in H.
  destruct H as [H|[H|[H|[]]]]; injection H as H _.
  - destruct c; discriminate H.
  - destruct c as [|a [|b c]]; [reflexivity|discriminate H|discriminate H].
  - destruct c as [|a [|b [|b' c]]]; [discriminate H| |discriminate H|discriminate H]. injection H as <- _. reflexivity.
Qed.

(** What is there stays as it is, whatever happens. *)
Theorem C86_keeps : forall cwd writable fuel fs p c b, gd_get place_eq fs c = Some b ->
  gd_get place_eq (fst (make_dirs cwd writable fuel fs p)) c = Some b.
Proof. exact keeps. Qed.
Print Assumptions C86_keeps.

Example C86_keeps_ex : make_dirs [] (fun _ => true) 5 tmp (lit "/tmp/notes/x") = (tmp, Ok None).
Proof. vm_compute. reflexivity. Qed.

(** A path that is there is given back, and nothing is made. *)
Theorem C86_already : forall cwd writable fuel fs p, (0 < fuel)%nat -> there cwd fs p = true -> make_dirs cwd writable fuel fs p = (fs, Ok (Some p)).
Proof. exact already. Qed.
Print Assumptions C86_already.

Example C86_already_ex : there [lit "tmp"] tmp (lit "../tmp/./notes") = true.
Proof. vm_compute. reflexivity. Qed.

(** If the second level above cannot be made, the path is given back although it is not there; *)
Theorem C86_not_made_refuted : forall cwd writable fuel fs c d, tree fs -> writable [] = false -> gd_mem place_eq fs [c] = false -> plain c -> plain d -> (1 < fuel)%nat ->
  make_dirs cwd writable fuel fs (path_text true [c; d]) = (fs, Ok (Some (path_text true [c; d]))) /\ there cwd fs (path_text true [c; d]) = false.
Proof. exact not_made. Qed.
Print Assumptions C86_not_made_refuted.

Example C86_not_made_ex : path_text true [lit "Users"; lit "fred"] = lit "/Users/fred" /\
  make_dirs [] (fun c => match c with [] => false | _ => true end) 100 tmp (lit "/Users/fred") = (tmp, Ok (Some (lit "/Users/fred"))) /\
  make_dirs [] (fun c => match c with [] => false | _ => true end) 100 tmp (lit "/Users") = (tmp, Ok None).
Proof. repeat apply conj; vm_compute; reflexivity. Qed.

(** if the third, it calls itself without end. *)
Theorem C86_endless_refuted : forall cwd writable fuel fs c d e cs, tree fs -> writable [] = false -> gd_mem place_eq fs [c] = false ->
  Forall plain (c :: d :: e :: cs) -> make_dirs cwd writable fuel fs (path_text true (c :: d :: e :: cs)) = (fs, Err OutOfFuel).
Proof. exact endless. Qed.
Print Assumptions C86_endless_refuted.

Example C86_endless_ex : make_dirs [] (fun c => match c with [] => false | _ => true end) 1000 tmp (lit "/Users/fred/data") = (tmp, Err OutOfFuel).
Proof. vm_compute. reflexivity. Qed.

(** Of a relative path with two new levels nothing is made, *)
Theorem C86_relative_refuted : forall cwd writable fuel fs c d, tree fs -> Forall plain cwd -> plain c -> plain d ->
  gd_mem place_eq fs (cwd ++ [c]) = false -> (0 < fuel)%nat -> make_dirs cwd writable fuel fs (path_text false [c; d]) = (fs, Ok None).
Proof. exact relative_two. Qed.
Print Assumptions C86_relative_refuted.

(** and with three it is given back nevertheless. *)
Theorem C86_relative_true_refuted : forall cwd writable fuel fs c d e, tree fs -> Forall plain cwd -> plain c -> plain d -> plain e ->
  gd_mem place_eq fs (cwd ++ [c]) = false -> (1 < fuel)%nat ->
  make_dirs cwd writable fuel fs (path_text false [c; d; e]) = (fs, Ok (Some (path_text false [c; d; e]))) /\ there cwd fs (path_text false [c; d; e]) = false.
Proof. exact relative_three. Qed.
Print Assumptions C86_relative_true_refuted.

Example C86_relative_ex : make_dirs [lit "tmp"] (fun _ => true) 100 tmp (lit "logs/a") = (tmp, Ok None) /\
  make_dirs [lit "tmp"] (fun _ => true) 100 tmp (lit "logs/a/b") = (tmp, Ok (Some (lit "logs/a/b"))) /\
  make_dirs [lit "tmp"] (fun _ => true) 100 tmp (lit "logs") = (tmp ++ [([lit "tmp"; lit "logs"], true)], Ok (Some (lit "logs"))).
Proof. repeat apply conj; vm_compute; reflexivity. Qed.
