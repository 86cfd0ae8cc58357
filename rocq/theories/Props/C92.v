(** C92: the file with a feature and the fewest others. *)
From Verif Require Import Spec.GzipSpec Spec.BestSpec Proofs.BestFacts.
Open Scope Z_scope.

(** get_best_file_match, for one feature, gives the file with the name of the feature if it is there, *)
Theorem C92_there_partial : forall gunz dec enc F (float_of : pystr -> option F) uni uninumeric numeq fs ls s a base b r, of_feature s a -> split_item float_of uni uninumeric a = Ok r ->
  fs (path_join2 base (a ++ lit ".txt")) = Some b ->
  get_best_file_match gunz dec enc float_of uni uninumeric numeq fs ls (FOne s) base = (fs, Ok (a ++ lit ".txt")).
Proof. exact @best_there. Qed.
Print Assumptions C92_there_partial.
(** also if it is compressed, *)
Theorem C92_zipped_partial : forall gunz dec enc F (float_of : pystr -> option F) uni uninumeric numeq fs ls s a base packed data r, of_feature s a -> split_item float_of uni uninumeric a = Ok r -> lossless dec enc ->
  fs (path_join2 base (a ++ lit ".txt")) = None -> fs (path_join2 base (a ++ lit ".txt") ++ lit ".gz") = Some packed -> gunz packed = (data, true) -> readable dec data ->
  exists fs', get_best_file_match gunz dec enc float_of uni uninumeric numeq fs ls (FOne s) base = (fs', Ok (a ++ lit ".txt")) /\ fs' (path_join2 base (a ++ lit ".txt")) = Some data.
Proof. exact @best_zipped. Qed.
Print Assumptions C92_zipped_partial.
(** otherwise the first file with the feature and the fewest others, of those with one other at least and less than ten for each character. *)
Theorem C92_search_partial : forall gunz dec enc F (float_of : pystr -> option F) uni uninumeric numeq, equivalence (item_eq numeq) -> forall fs ls s a base r,
  of_feature s a -> split_item float_of uni uninumeric a = Ok r ->
  fs (path_join2 base (a ++ lit ".txt")) = None -> fs (path_join2 base (a ++ lit ".txt") ++ lit ".gz") = None ->
  Forall (fun o => text_file o -> splits float_of uni uninumeric o) ls ->
  exists res, get_best_file_match gunz dec enc float_of uni uninumeric numeq fs (Some ls) (FOne s) base = (fs, Ok res) /\
    ((res = a ++ lit ".txt" /\ forall o k, In o ls -> has_extras float_of uni uninumeric (item_eq numeq) r o k -> k <= 0 \/ 10 * Z.of_nat (length s) <= k) \/
     (exists l1 l2 k, ls = l1 ++ res :: l2 /\ has_extras float_of uni uninumeric (item_eq numeq) r res k /\ 0 < k < 10 * Z.of_nat (length s) /\
        (forall o k', In o l1 -> has_extras float_of uni uninumeric (item_eq numeq) r o k' -> k' <= 0 \/ k < k') /\
        (forall o k', In o l2 -> has_extras float_of uni uninumeric (item_eq numeq) r o k' -> k' <= 0 \/ k <= k'))).
Proof. exact @best_search. Qed.
Print Assumptions C92_search_partial.
(** The number of others is determined. *)
Theorem C92_extras : forall F (numeq : @item_ F -> item_ -> bool), equivalence (item_eq numeq) -> forall r its k k', extras (item_eq numeq) r its k -> extras (item_eq numeq) r its k' -> k = k'.
Proof. exact @extras_unique. Qed.
Print Assumptions C92_extras.

Definition ex_ls := [lit "x.txt"; lit "a-b-c.txt"; lit "a-b.csv"; lit "d-a-d.txt.gz"; lit "a-8.txt"].
Example C92_ex : of_feature (lit "a_scaled") (lit "a") /\ equivalence (item_eq int_eq) /\
  split_item no_float (fun _ => None) (fun _ => false) (lit "a") = Ok (IStr (lit "a")) /\
  Forall (fun o => text_file o -> splits no_float (fun _ => None) (fun _ => false) o) ex_ls /\
  has_extras no_float (fun _ => None) (fun _ => false) (item_eq int_eq) (IStr (lit "a")) (lit "d-a-d.txt.gz") 1 /\
  ex_best ex_ls (lit "a_scaled") = Ok (lit "d-a-d.txt.gz") /\ ex_best [lit "x.txt"] (lit "a_scaled") = Ok (lit "a.txt").
Proof.
  split; [split; [repeat constructor; discriminate|right; now exists (lit "scaled")]|]. split; [exact int_equivalence|]. split; [reflexivity|]. split.
  { repeat constructor; intros _; eexists; vm_compute; reflexivity. }
  split; [|split; vm_compute; reflexivity].
  split; [now exists [46], (lit ".gz")|]. exists [IStr (lit "d"); IStr (lit "a"); IStr (lit "d")]. split; [vm_compute; reflexivity|]. split; [exists (IStr (lit "a")); split; [now right; left|reflexivity]|].
  exists [IStr (lit "d")]. split; [reflexivity|]. split; [split; [constructor|exact I]|]. split; [intros d [<-|[]]; split; [now left|reflexivity]|].
  intros i [<-|[<-|[<-|[]]]]; [right|left|right]; try reflexivity; exists (IStr (lit "d")); (split; [now left|reflexivity]).
Qed.

(** A list of features always raises; *)
Theorem C92_lists_refuted : forall gunz dec enc F (float_of : pystr -> option F) uni uninumeric numeq fs ls l base,
  get_best_file_match gunz dec enc float_of uni uninumeric numeq fs ls (FMany l) base = (fs, Err AttributeError).
Proof. exact @lists_raise. Qed.
Print Assumptions C92_lists_refuted.
(** a file without any other feature, or with too many, is not found: the name given is of no file. *)
Theorem C92_no_others_refuted : ex_best [lit "a-a.txt"] (lit "a") = Ok (lit "a.txt").
Proof. exact none_left. Qed.
Print Assumptions C92_no_others_refuted.
Theorem C92_many_others_refuted : ex_best [lit "a-b-c-d-e-f-g-h-i-j-k.txt"] (lit "a") = Ok (lit "a.txt").
Proof. exact many_left. Qed.
Print Assumptions C92_many_others_refuted.
