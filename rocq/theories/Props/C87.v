(** C87: the directories in a path, and its extension. *)
From Verif Require Import Spec.DirsSpec Proofs.DirsFacts.
Open Scope Z_scope.

(** The names between the slashes, without empty ones and single dots, if there are no two dots *)
Theorem C87_parts_partial : forall p, Forall (fun c => c <> [dot; dot]) (pieces p) -> pieces p <> [] -> get_all_dirs p None = Ok (Some (pieces p)).
Proof. exact parts. Qed.
Print Assumptions C87_parts_partial.
Theorem C87_parts_text : forall r cs, Forall plain cs -> cs <> [] -> get_all_dirs (path_text r cs) None = Ok (Some cs).
Proof. exact parts_text. Qed.
Print Assumptions C87_parts_text.

Example C87_parts_ex : pieces (lit "./tmp/asdf//fred/") = map lit ["tmp"; "asdf"; "fred"]%string /\
  get_all_dirs (lit "./tmp/asdf//fred/") None = Ok (Some (map lit ["tmp"; "asdf"; "fred"]%string)) /\
  get_all_dirs (lit "//tmp/raw.txt") None = Ok (Some (map lit ["tmp"; "raw.txt"]%string)).
Proof. repeat apply conj; vm_compute; reflexivity. Qed.

(** Below a directory, however it is written, that is in the path once: the names after it *)
Theorem C87_below_partial : forall base pre rest b, b <> [] -> contains b (pre ++ base ++ slash :: rest) = true -> normpath b = base -> base <> [] ->
  once base pre (pre ++ base ++ slash :: rest) -> Forall (fun c => c <> [dot; dot]) (pieces rest) ->
  get_all_dirs (pre ++ base ++ slash :: rest) (Some b) = Ok (Some (pieces rest)).
Proof. exact parts_below. Qed.
Print Assumptions C87_below_partial.

Example C87_below_ex : contains (lit "/tmp/") (lit "/tmp" ++ lit "/asdf/fred") = true /\ normpath (lit "/tmp/") = lit "/tmp" /\
  once (lit "/tmp") [] (lit "/tmp/asdf/fred") /\
  get_all_dirs (lit "/tmp/asdf/fred") (Some (lit "/tmp/")) = Ok (Some (map lit ["asdf"; "fred"]%string)) /\
  get_all_dirs (lit "../tmp/asdf/fred/") (Some (lit "../tmp")) = Ok (Some (map lit ["asdf"; "fred"]%string)).
Proof.
  split; [reflexivity|]. split; [vm_compute; reflexivity|]. split; [|split; vm_compute; reflexivity].
  intros a b E. do 14 (destruct a as [|? a]; [try reflexivity; discriminate E|injection E as _ E]). destruct a; discriminate E.
Qed.

(** Without the directory in it: None *)
Theorem C87_none : forall p b, b <> [] -> (forall x y, p <> x ++ b ++ y) -> get_all_dirs p (Some b) = Ok None.
Proof. exact parts_none. Qed.
Print Assumptions C87_none.

Example C87_none_ex : get_all_dirs (lit "tmp/asdf/fred") (Some (lit "/tmp/")) = Ok None.
Proof. vm_compute. reflexivity. Qed.

(** Of the directory itself there is one more below it, the dot, *)
Theorem C87_self_refuted : forall r cs, Forall plain cs -> cs <> [] -> get_all_dirs (path_text r cs) (Some (path_text r cs)) = Ok (Some [[dot]]).
Proof. exact parts_self. Qed.
Print Assumptions C87_self_refuted.

(** part of a name is taken for a directory, a directory named twice and one with two slashes raise ValueError, and an empty path has the dot in it. *)
Theorem C87_others_refuted :
  get_all_dirs (lit "/data/tmp2/x") (Some (lit "tmp")) = Ok (Some (map lit ["2"; "x"]%string)) /\
  get_all_dirs (lit "/tmp/a/tmp/b") (Some (lit "tmp")) = Err ValueError /\
  get_all_dirs (lit "/tmp//a/b") (Some (lit "/tmp//a")) = Err ValueError /\
  get_all_dirs [] None = Ok (Some [[dot]]).
Proof. exact parts_others. Qed.
Print Assumptions C87_others_refuted.

(** The two parts of split_ext make up the path, *)
Theorem C87_ext_whole : forall p, fst (split_ext p) ++ snd (split_ext p) = p.
Proof. exact ext_parts. Qed.
Print Assumptions C87_ext_whole.

(** and the second is the extension, with that of compression. *)
Theorem C87_ext : forall d n e, (exists a s, n = a :: s /\ a <> dot) -> ~ In slash n -> ~ In slash e -> ~ In dot e -> e <> lit "gz" ->
  (d = [] \/ exists d', d = d' ++ [slash]) ->
  split_ext (d ++ n ++ dot :: e) = (d ++ n, dot :: e) /\ split_ext ((d ++ n ++ dot :: e) ++ lit ".gz") = (d ++ n, dot :: e ++ lit ".gz").
Proof. exact ext_gz. Qed.
Print Assumptions C87_ext.

Example C87_ext_ex : split_ext (lit "data.d/tmp.1.txt.gz") = (lit "data.d/tmp.1", lit ".txt.gz") /\
  split_ext (lit "data.d/tmp") = (lit "data.d/tmp", []) /\ split_ext (lit "data.d/.gz") = (lit "data.d/.gz", []).
Proof. repeat apply conj; vm_compute; reflexivity. Qed.
