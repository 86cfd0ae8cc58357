(** C90: compressing and uncompressing files. *)
From Verif Require Import Spec.GzipSpec Proofs.GzipFacts.
Open Scope Z_scope.

(** zipfile then unzip gives back the file as it was and changes no other, *)
Theorem C90_round : forall gz gunz dec enc fs p b, named p -> lossless dec enc -> gunz (gz b) = (b, true) -> readable dec b -> fs p = Some b ->
  exists fs1 fs2, zipfile gz fs p true = (fs1, Ok (p ++ lit ".gz")) /\ unzip gunz dec enc fs1 (p ++ lit ".gz") true = (fs2, Ok p) /\
    fs2 (p ++ lit ".gz") = None /\ forall q, q <> p ++ lit ".gz" -> fs2 q = fs q.
Proof. exact round. Qed.
Print Assumptions C90_round.

(** with what is between, and whether the first file is kept. *)
Theorem C90_zip : forall gz fs p cleanup b, fs p = Some b -> exists fs1, zipfile gz fs p cleanup = (fs1, Ok (p ++ lit ".gz")) /\ fs1 (p ++ lit ".gz") = Some (gz b) /\
  fs1 p = (if cleanup then None else Some b) /\ (forall q, q <> p -> q <> p ++ lit ".gz" -> fs1 q = fs q).
Proof. exact zip_does. Qed.
Print Assumptions C90_zip.
Theorem C90_unzip_partial : forall gunz dec enc fs p cleanup packed data, named p -> lossless dec enc -> fs p = None -> fs (p ++ lit ".gz") = Some packed ->
  gunz packed = (data, true) -> readable dec data ->
  exists fs1, unzip gunz dec enc fs (p ++ lit ".gz") cleanup = (fs1, Ok p) /\ fs1 p = Some data /\ fs1 (p ++ lit ".gz") = (if cleanup then None else Some packed) /\
    (forall q, q <> p -> q <> p ++ lit ".gz" -> fs1 q = fs q).
Proof. exact unzip_does. Qed.
Print Assumptions C90_unzip_partial.

(** unzip, of whatever file and with whatever outcome, loses nothing: it makes one new file, and removes the archive only if that file is all of it. *)
Theorem C90_safe : forall gunz dec enc fs f cleanup fs' r q, lossless dec enc -> unzip gunz dec enc fs f cleanup = (fs', r) -> fs' q <> fs q ->
  (q = fst (splitext f) /\ fs q = None) \/
  (q = f /\ r = Ok (fst (splitext f)) /\ cleanup = true /\ exists packed data, fs f = Some packed /\ gunz packed = (data, true) /\ fs' (fst (splitext f)) = Some data).
Proof. exact safe_unzip. Qed.
Print Assumptions C90_safe.

(** The file that file_exists gives is there, *)
Theorem C90_there : forall gunz dec enc fs p check_zip unzip_file fs' q, file_exists gunz dec enc fs p check_zip unzip_file = (fs', Ok (Some q)) ->
  (check_zip && unzip_file = true -> named p) -> file_there fs' q = true.
Proof. exact exists_there. Qed.
Print Assumptions C90_there.
(** and it gives none if there is none. *)
Theorem C90_none : forall gunz dec enc fs p unzip_file, named p -> fs p = None -> fs (p ++ lit ".gz") = None -> (snd (splitext p) = lit ".gz" -> fs (fst (splitext p)) = None) ->
  file_exists gunz dec enc fs p true unzip_file = (fs, Ok None).
Proof. exact exists_not. Qed.
Print Assumptions C90_none.

Definition ex_fs : store := put (put (fun _ => None) (lit "logs/a.txt") (Some (lit "x" ++ [10] ++ lit "y"))) (lit "logs/b") (Some (lit "z")).
Definition ex_gz (b : list Z) : list Z := 31 :: b.
Definition ex_gunz (b : list Z) : list Z * bool := match b with 31 :: b' => (b', true) | _ => ([], false) end.
Example C90_ex : named (lit "logs/a.txt") /\ lossless ascii_dec Some /\ (forall b, ex_gunz (ex_gz b) = (b, true)) /\ readable ascii_dec (lit "x" ++ [10] ++ lit "y") /\
  ex_fs (lit "logs/a.txt") = Some (lit "x" ++ [10] ++ lit "y") /\ fst (zipfile ex_gz ex_fs (lit "logs/a.txt") true) (lit "logs/a.txt") = None /\
  fst (zipfile ex_gz ex_fs (lit "logs/a.txt") true) (lit "logs/a.txt.gz") = Some (31 :: lit "x" ++ [10] ++ lit "y") /\
  let fs1 := fst (zipfile ex_gz ex_fs (lit "logs/a.txt") true) in
  snd (file_exists ex_gunz ascii_dec Some fs1 (lit "logs/a.txt") true true) = Ok (Some (lit "logs/a.txt")) /\
  snd (file_exists ex_gunz ascii_dec Some fs1 (lit "logs/a.txt") true false) = Ok (Some (lit "logs/a.txt.gz")) /\
  snd (file_exists ex_gunz ascii_dec Some fs1 (lit "logs/c") true true) = Ok None.
Proof.
  split; [exists (lit "logs/"), (lit "a.txt"), 97; split; [reflexivity|]; split; [right; now exists (lit "logs")|]; split; [cbn; intuition discriminate|]; split; [now left|discriminate]|].
  split; [exact ascii_lossless|]. split; [reflexivity|]. split; [cbv; repeat constructor; discriminate|]. repeat split; vm_compute; reflexivity.
Qed.

(** A file that is already there is given, whatever is in it and in the archive; *)
Theorem C90_stale_refuted : forall gunz dec enc fs p cleanup v, named p -> fs p = Some v -> unzip gunz dec enc fs (p ++ lit ".gz") cleanup = (fs, Ok p).
Proof. exact stale. Qed.
Print Assumptions C90_stale_refuted.
(** so after any failure to uncompress the second call succeeds, *)
Theorem C90_second_refuted : forall gunz dec enc fs p cleanup cleanup' fs' e packed, named p -> fs (p ++ lit ".gz") = Some packed ->
  unzip gunz dec enc fs (p ++ lit ".gz") cleanup = (fs', Err e) -> unzip gunz dec enc fs' (p ++ lit ".gz") cleanup' = (fs', Ok p).
Proof. exact second. Qed.
Print Assumptions C90_second_refuted.
(** with a file that is cut off. *)
Theorem C90_cut_off_refuted : let p := lit "log.txt" in let fs := put (fun _ => None) (p ++ lit ".gz") (Some (lit "a" ++ [10; 200; 10] ++ lit "b")) in
  snd (unzip (fun b => (b, true)) ascii_dec Some fs (p ++ lit ".gz") false) = Err ValueError /\
  let fs1 := fst (unzip (fun b => (b, true)) ascii_dec Some fs (p ++ lit ".gz") false) in
  unzip (fun b => (b, true)) ascii_dec Some fs1 (p ++ lit ".gz") false = (fs1, Ok p) /\ fs1 p = Some (lit "a" ++ [10]).
Proof. exact cut_off. Qed.
Print Assumptions C90_cut_off_refuted.
