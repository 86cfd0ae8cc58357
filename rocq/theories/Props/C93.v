(** C93: numbers at the end of names, and the headers of log files. *)
From Verif Require Import Spec.HeadersSpec Proofs.LogHeadersFacts.
Open Scope Z_scope.

(** de_number takes off the number at the end of a name, with a dash before it if there is one, and gives the value of its text; *)
Theorem C93_number : forall literal_eval uni uninumeric p ds, name_end uninumeric p -> number_text uninumeric ds ->
  de_number literal_eval uni uninumeric (p ++ ds) = (do v <- de_string literal_eval uni uninumeric ds; Ok (p, Some v)).
Proof. exact number_after. Qed.
Print Assumptions C93_number.
Theorem C93_dash : forall literal_eval uni uninumeric p ds, ~ numeric_char uninumeric dash -> number_text uninumeric ds ->
  de_number literal_eval uni uninumeric (p ++ dash :: ds) = (do v <- de_string literal_eval uni uninumeric ds; Ok (p, Some v)).
Proof. exact number_dash. Qed.
Print Assumptions C93_dash.
(** other names stay as they are. *)
Theorem C93_no_number : forall literal_eval uni uninumeric p c, ~ numeric_char uninumeric c -> de_number literal_eval uni uninumeric (p ++ [c]) = Ok (p ++ [c], None).
Proof. exact number_none. Qed.
Print Assumptions C93_no_number.

(** get_headers gives columns of the file only, each a form of a header asked for, and for each header that is there in some form at least one. *)
Theorem C93_headers : forall literal_eval uni uninumeric to_str columns subset res, subset <> [] -> get_headers literal_eval uni uninumeric to_str (Some columns) subset = Ok res ->
  (forall h, In h res -> In h columns /\ exists s, In s subset /\ form_of literal_eval uni uninumeric to_str s h) /\
  (forall s, In s subset -> In s columns -> In s res) /\
  (forall s prefix suffix, In s subset -> ~ In s columns -> de_number literal_eval uni uninumeric s = Ok (prefix, suffix) -> (In prefix columns -> In prefix res) /\
     (~ In prefix columns -> In (array_name to_str prefix suffix) columns -> In (array_name to_str prefix suffix) res)) /\ (length res <= length subset)%nat.
Proof. exact headers_found. Qed.
Print Assumptions C93_headers.
Theorem C93_headers_same : forall literal_eval uni uninumeric to_str columns subset, subset <> [] -> incl subset columns -> get_headers literal_eval uni uninumeric to_str (Some columns) subset = Ok subset.
Proof. exact headers_same. Qed.
Print Assumptions C93_headers_same.
Theorem C93_headers_all : forall literal_eval uni uninumeric to_str columns subset, get_headers literal_eval uni uninumeric to_str (Some columns) [] = Ok columns /\ get_headers literal_eval uni uninumeric to_str None subset = Ok [].
Proof. exact headers_all. Qed.
Print Assumptions C93_headers_all.

(** file_complete, without a number of lines, tells whether the file exists, *)
Theorem C93_exists : forall literal_eval uni uninumeric to_str p there columns exc, file_complete literal_eval uni uninumeric to_str p there columns 0 [] exc =
  (if match p with [] => true | _ => false end then if exc then Err ValueError else Ok false else if there then Ok true else if exc then Err OSError else Ok false).
Proof. exact complete_plain. Qed.
Print Assumptions C93_exists.
(** and is true if all headers are there; *)
Theorem C93_all_partial : forall literal_eval uni uninumeric to_str p columns req, p <> [] -> req <> [] -> incl req columns -> file_complete literal_eval uni uninumeric to_str p true (Some columns) 0 req false = Ok true.
Proof. exact complete_all. Qed.
Print Assumptions C93_all_partial.
(** it is so exactly if get_headers finds one. *)
Theorem C93_complete_partial : forall literal_eval uni uninumeric to_str p there columns req, req <> [] -> file_complete literal_eval uni uninumeric to_str p there (Some columns) 0 req false = Ok true <->
  p <> [] /\ there = true /\ exists h hs, get_headers literal_eval uni uninumeric to_str (Some columns) req = Ok (h :: hs).
Proof. exact complete_headers. Qed.
Print Assumptions C93_complete_partial.

Definition ex_eval (s : pystr) : option pval := option_map VInt (int_of_str (fun _ => None) s).
Definition ex_str (v : pval) : pystr := match v with VInt n => str_of_int n | _ => [] end.
Notation ex_headers := (get_headers ex_eval (fun _ => None) (fun _ => false) ex_str).
Example C93_ex : name_end (fun _ => false) (lit "joint") /\ number_text (fun _ => false) (lit "010") /\
  de_number ex_eval (fun _ => None) (fun _ => false) (lit "joint010") = Ok (lit "joint", Some (VInt 10)) /\
  de_number ex_eval (fun _ => None) (fun _ => false) (lit "joint-010") = Ok (lit "joint", Some (VInt 10)) /\
  ex_headers (Some [lit "t"; lit "a[1]"; lit "b"; lit "c2"]) [lit "c2"; lit "a1"; lit "b-7"; lit "x"] = Ok [lit "c2"; lit "a[1]"; lit "b"] /\
  incl [lit "b"; lit "t"] [lit "t"; lit "a[1]"; lit "b"; lit "c2"].
Proof.
  split; [exists (lit "join"), 116; split; [reflexivity|]; split; [discriminate|]; split; discriminate|]. split.
  - split; [repeat constructor|]. exists (lit "01"), 48. now split.
  - split; [vm_compute; reflexivity|]. split; [vm_compute; reflexivity|]. split; [vm_compute; reflexivity|]. intros x [<-|[<-|[]]]; cbn; tauto.
Qed.

(** de_number fails for a text that is only a number, *)
Theorem C93_only_refuted : forall literal_eval uni uninumeric ds, ds = [] \/ number_text uninumeric ds -> de_number literal_eval uni uninumeric ds = Err IndexError.
Proof. exact number_only. Qed.
Print Assumptions C93_only_refuted.
(** one required header is enough for file_complete, *)
Theorem C93_one_refuted : forall literal_eval uni uninumeric to_str p columns h hs, p <> [] -> In h columns -> Forall (fun s => exists x, de_number literal_eval uni uninumeric s = Ok x) hs ->
  file_complete literal_eval uni uninumeric to_str p true (Some columns) 0 (h :: hs) false = Ok true.
Proof. exact complete_one. Qed.
Print Assumptions C93_one_refuted.
(** with a number of lines it is never true: it raises NameError if the file is there, *)
Theorem C93_lines_refuted : forall literal_eval uni uninumeric to_str p columns n exc, p <> [] -> n <> 0 -> file_complete literal_eval uni uninumeric to_str p true columns n [] exc = Err NameError.
Proof. exact complete_lines_raise. Qed.
Print Assumptions C93_lines_refuted.
Theorem C93_lines_never_refuted : forall literal_eval uni uninumeric to_str p columns n req exc b, n <> 0 -> file_complete literal_eval uni uninumeric to_str p true columns n req exc = Ok b -> b = false.
Proof. exact complete_lines. Qed.
Print Assumptions C93_lines_never_refuted.
(** and exception=True gives NameError where a header is missing. *)
Theorem C93_missing_refuted : forall literal_eval uni uninumeric to_str p columns n req, p <> [] -> req <> [] -> get_headers literal_eval uni uninumeric to_str columns req = Ok [] ->
  file_complete literal_eval uni uninumeric to_str p true columns n req true = Err NameError.
Proof. exact complete_missing_raise. Qed.
Print Assumptions C93_missing_refuted.
