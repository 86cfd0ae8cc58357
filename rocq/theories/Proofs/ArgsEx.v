(** A class with every kind of field, a command line of it, and an instance. *)
From Coq Require Import Permutation Sorted.
From Verif Require Import Proofs.DictFacts Proofs.StrFacts Proofs.PyFacts Proofs.FileNamesFacts
  Proofs.StructuresTop Proofs.StructuresMore Proofs.StructuresNeg Proofs.ArgsFacts Proofs.ArgsRead Proofs.ArgsTop Proofs.ArgsNeg Spec.ArgsSpec.
Open Scope Z_scope.

Definition ex_class := [required (named "count" CInt); with_default (VBool false) (named "verbose" CBool); named "cut" CList;
  named "key" CKeyed; with_default (VStr (lit "x")) (named "label" CStr); with_nargs NStar (named "tag" CStr); named "x" CAny].

Lemma nodup_dec (l : list pystr) : (fix go l := match l with [] => true | x :: r => negb (existsb (streq x) r) && go r end) l = true -> NoDup l.
Proof.
  induction l as [|x r IH]; intros H; [constructor|]. apply andb_prop in H as [H1 H2]. constructor; [|now apply IH].
  intros X. rewrite (proj2 (existsb_exists (streq x) r)) in H1; [discriminate|]. exists x. split; [exact X|apply streq_refl].
Qed.
Ltac ident_tac := split; [discriminate|lit_forall].
Ltac one_of H := repeat (destruct H as [<-|H]; [|]); [..|destruct H].

Lemma ex_class_ok : args_class ex_class.
Proof.
  split.
  - intros f H. one_of H; ident_tac.
  - apply nodup_dec. vm_compute. reflexivity.
  - intros f H _ _. one_of H; discriminate.
Qed.

Definition ex_line := [Option_words (named "cut" CList) (lit "--cuts") [lit "1"; lit "-2"] (VList [VStr (lit "1"); VStr (lit "-2")]);
  Stranger (lit "--zeta") [lit "3"];
  Option_equals (required (named "count" CInt)) (lit "--cou") (lit "-5") (VInt (-5));
  Option_words (with_default (VBool false) (named "verbose" CBool)) (lit "--verbose") [] (VBool true);
  Option_words (with_nargs NStar (named "tag" CStr)) (lit "--tag") [lit "a"; lit "b"] (VList [VStr (lit "a"); VStr (lit "b")])].
Definition ex_line2 := [Option_words (with_nargs NStar (named "tag" CStr)) (lit "--t") [lit "a"; lit "b"] (VList [VStr (lit "a"); VStr (lit "b")]);
  Option_words (with_default (VBool false) (named "verbose" CBool)) (lit "--verbose") [] (VBool true);
  Option_words (required (named "count" CInt)) (lit "--count") [lit "-5"] (VInt (-5));
  Option_words (named "cut" CList) (lit "--cuts") [lit "1"; lit "-2"] (VList [VStr (lit "1"); VStr (lit "-2")])].

Lemma arg_word c s : c <> dash -> argument (c :: s).
Proof. intros H. left. intros c' s' E. now injection E as <- <-. Qed.
Lemma arg_neg ds : ds <> [] -> digits ds -> argument (dash :: ds).
Proof. intros. right. right. left. now exists ds. Qed.
Lemma stands_prefix fs n rest o : n <> [] -> o = flag n ++ rest ->
  forallb (fun o' => negb (is_prefix (flag n) o') || streq o' o) (all_options fs) = true -> stands_for fs (flag n) o.
Proof.
  intros Hn -> H. right. exists n, rest. do 3 (split; [easy|]). intros o' r' Hin E.
  rewrite forallb_forall in H. specialize (H o' Hin). apply Bool.orb_prop in H as [H|H].
  - rewrite (proj2 (is_prefix_spec (flag n) o')) in H; [discriminate|]. now exists r'.
  - now apply streq_spec.
Qed.
Lemma stranger_dec fs n : ident n -> forallb (fun o' => negb (is_prefix (flag n) o')) (all_options fs) = true -> stranger fs (flag n).
Proof.
  intros Hn H. exists n. split; [reflexivity|]. split; [exact Hn|]. intros o r Hin E. rewrite forallb_forall in H. specialize (H o Hin).
  rewrite (proj2 (is_prefix_spec (flag n) o)) in H; [discriminate|]. now exists r.
Qed.

Section any.
  Variable uni : pystr -> option Z.
  Variable to_float : pval -> option pval.
  Lemma ex_not_given f : In f ex_class -> exists v, not_given uni to_float f v.
  Proof. intros H. one_of H; unfold not_given; cbn; eexists; reflexivity. Qed.
  Lemma ex_parts p : In p ex_line \/ In p ex_line2 -> part_ok uni to_float ex_class p.
  Proof.
    assert (A1 : Forall argument [lit "1"; lit "-2"]).
    { constructor; [apply arg_word; discriminate|]. constructor; [|constructor]. apply arg_neg; [discriminate|]. unfold digits. lit_forall. }
    assert (A2 : Forall argument [lit "a"; lit "b"]) by (constructor; [apply arg_word; discriminate|]; constructor; [apply arg_word; discriminate|constructor]).
    assert (G : gives uni to_float (with_nargs NStar (named "tag" CStr)) (flag (lit "tag")) [lit "a"; lit "b"] (VList [VStr (lit "a"); VStr (lit "b")])).
    { apply (gives_many uni to_float (with_nargs NStar (named "tag" CStr)) NStar); try easy. constructor; [split; [reflexivity|intros ok E; discriminate]|].
      constructor; [split; [reflexivity|intros ok E; discriminate]|]. constructor. }
    assert (G5 : gives uni to_float (required (named "count" CInt)) (flag (lit "count")) [lit "-5"] (VInt (-5))).
    { apply (gives_plain uni to_float (required (named "count" CInt))); try easy. exists (-5). split; [vm_compute; reflexivity|reflexivity]. }
    intros [H|H]; one_of H; cbn [part_ok].
    - split; [cbn; tauto|]. split; [exact A1|]. exists (lit "--cuts"). split; [now left|]. now apply (gives_lists uni to_float (named "cut" CList)).
    - split; [apply (stranger_dec _ (lit "zeta")); [ident_tac|vm_compute; reflexivity]|]. constructor; [apply arg_word; discriminate|constructor].
    - split; [cbn; tauto|]. split; [discriminate|]. exists (lit "--count"). split; [|exact G5].
      apply (stands_prefix ex_class (lit "cou") (lit "nt")); [discriminate|reflexivity|vm_compute; reflexivity].
    - split; [cbn; tauto|]. split; [constructor|]. exists (lit "--verbose"). split; [now left|]. now apply (gives_on uni to_float (with_default (VBool false) (named "verbose" CBool))).
    - split; [cbn; tauto|]. split; [exact A2|]. exists (lit "--tag"). split; [now left|]. exact G.
    - split; [cbn; tauto|]. split; [exact A2|]. exists (lit "--tag"). split; [|exact G].
      apply (stands_prefix ex_class (lit "t") (lit "ag")); [discriminate|reflexivity|vm_compute; reflexivity].
    - split; [cbn; tauto|]. split; [constructor|]. exists (lit "--verbose"). split; [now left|]. now apply (gives_on uni to_float (with_default (VBool false) (named "verbose" CBool))).
    - split; [cbn; tauto|]. split; [|exists (lit "--count"); split; [now left|exact G5]]. constructor; [|constructor]. apply arg_neg; [discriminate|]. unfold digits. lit_forall.
    - split; [cbn; tauto|]. split; [exact A1|]. exists (lit "--cuts"). split; [now left|]. now apply (gives_lists uni to_float (named "cut" CList)).
  Qed.
  Lemma ex_line_ok : line_ok uni to_float ex_class ex_line.
  Proof.
    split.
    - intros p H. apply ex_parts. now left.
    - apply nodup_dec. vm_compute. reflexivity.
    - intros f H R _. one_of H; try discriminate R. cbn. tauto.
    - intros f H _. now apply ex_not_given.
  Qed.
  Lemma ex_line2_ok : line_ok uni to_float ex_class ex_line2.
  Proof.
    split.
    - intros p H. apply ex_parts. now right.
    - apply nodup_dec. vm_compute. reflexivity.
    - intros f H R _. one_of H; try discriminate R. cbn. tauto.
    - intros f H _. now apply ex_not_given.
  Qed.
  Lemma ex_perm : Permutation (values_given ex_line) (values_given ex_line2).
  Proof.
    change (values_given ex_line2) with (rev (values_given ex_line)). apply Permutation_rev.
  Qed.
End any.

(** an instance *)
Definition ex_inst := [attr "count" (VInt (-5)); attr "verbose" (VBool true); attr "cut" (VList [VInt 1; VStr (lit "b")]);
  attr "key" (VDict [(lit "a", VInt 0); (lit "b", VList [VInt 1; VInt (2)])]); attr "label" (VStr (lit "a-b/c")); attr "tag" (VList [VStr (lit "t")]);
  attr "x" (VStr (lit "y"))].
Lemma ex_returns : all_return simple_eval (fun _ => false) (fun _ => false) (fun _ => None) ex_class ex_inst.
Proof.
  intros f Hf. one_of Hf; (eexists; split; [vm_compute; reflexivity|]); unfold returns; cbn [f_class f_nargs named required with_default with_nargs].
  - split; [eexists; reflexivity|]. intros ok E; discriminate.
  - split; [reflexivity|]. split; [eexists; reflexivity|]. intros ok E; discriminate.
  - split.
    + eexists. split; [reflexivity|]. split; [discriminate|]. split; [discriminate|]. split; [|discriminate].
      constructor; [constructor; lia|]. constructor; [|constructor]. apply item_word; reflexivity.
    + eexists. split; [apply value_text_dec; vm_compute; reflexivity|]. apply arg_word. discriminate.
  - split.
    + eexists. split; [reflexivity|]. split; [discriminate|]. split; [cbn; constructor; [intros [X|[]]; discriminate X|constructor; [intros []|constructor]]|].
      intros k x [X|[X|[]]]; injection X as <- <-; (split; [apply safe_dec; reflexivity|]; split; [now apply not_in_dec|]).
      * constructor. constructor. lia.
      * apply rest_list; [discriminate|constructor; lia|constructor; lia|constructor].
    + eexists. split; [apply value_text_dec; vm_compute; reflexivity|]. apply arg_word. discriminate.
  - split; [|intros ok E; discriminate]. eexists. split; [reflexivity|]. split; [apply arg_word; discriminate|now apply not_in_dec].
  - split; [exact I|]. eexists. split; [reflexivity|]. split; [|split; [intros ok E; discriminate|]].
    + eexists. split; [reflexivity|]. split; [apply arg_word; discriminate|now apply not_in_dec].
    + intros s E. injection E as <-. apply safe_dec. reflexivity.
  - split; [|intros ok E; discriminate]. eexists. split; [reflexivity|]. split; [apply arg_word; discriminate|now apply not_in_dec].
Qed.
Lemma ex_string : get_arg_string (fun _ => false) ex_class ex_inst = Ok (lit "--count -5 --verbose --cut 1-b --key a-0_b-1-2 --label a-b/c --tag t --x y").
Proof. vm_compute. reflexivity. Qed.
