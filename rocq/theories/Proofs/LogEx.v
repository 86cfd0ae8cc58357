(** C74: examples, and what goes wrong with log files. *)
From Verif Require Import Model.LogData Spec.LogSpec Proofs.StrFacts Proofs.LogDataFacts Proofs.LogSave.
Open Scope Z_scope.

(** a plain reading of numbers *)
Definition ascii_only : Z -> bool := fun _ => false.
Definition no_gz : pystr -> option (list pystr) := fun _ => None.
Notation get_ := (get_log_data ascii_only parse_nat no_gz).
Notation save_ := (save_log_data ascii_only (fun s : pystr => s)).

Definition ex_data : list (pystr * list pystr) := [(lit "b", [lit "3"; lit "x"; lit "5"]); (lit "a", [lit "1"; lit "20"])].
Definition ex_notes : list pystr := [lit "run 1 "; lit "# second"].

Lemma wordy_dec s : s <> [] -> forallb (fun c => negb (space ascii_only c)) s = true -> wordy ascii_only s.
Proof.
  intros N H. split; [exact N|]. intros c Hc. rewrite forallb_forall in H. specialize (H c Hc).
  now apply negb_true_iff in H.
Qed.
Lemma one_line_dec s : has_char 10 s = false -> has_char 13 s = false -> one_line s.
Proof.
  intros A B. split; intros H; apply has_char_in in H; congruence.
Qed.

Lemma ex_savable : savable ascii_only (fun s : pystr => s) (lit "log.txt") ex_data ex_notes 2.
Proof.
  split.
  - apply one_line_dec; reflexivity.
  - repeat constructor; try discriminate; try (apply has_char_in; discriminate);
      intros H; apply has_char_in in H; discriminate.
  - repeat constructor; cbn; intros [H|[]] || intros []; discriminate.
  - repeat constructor; try discriminate; intros c [<-|[]]; reflexivity.
  - exists (lit "a"), [lit "1"; lit "20"]. split; [|split; [|split]].
    + split; [right; now left|]. intros k' [<-|[<-|[]]]; reflexivity.
    + discriminate.
    + right. now left.
    + reflexivity.
  - repeat constructor; cbn; lia.
  - apply Forall_forall. intros kc H. apply Forall_forall. intros v Hv.
    destruct H as [<-|[<-|[]]]; cbn in Hv; destruct Hv as [<-|[<-|[]]]; (apply wordy_dec; [discriminate|reflexivity]).
Qed.

Lemma gz_example : let p := lit "gz/log.txt" in
  savable ascii_only (fun s : pystr => s) p ex_data ex_notes 2 /\ contains (lit "gz") p = true /\ is_zip p = false /\
  (forall t, no_gz (35 :: t) = None).
Proof.
  destruct ex_savable as [A B C D E F G]. split; [|split; [reflexivity|split; [reflexivity|reflexivity]]].
  constructor; try assumption. apply one_line_dec; reflexivity.
Qed.

Lemma example : let p := lit "log.txt" in
  savable ascii_only (fun s : pystr => s) p ex_data ex_notes 2 /\ no_clash (map fst ex_data) /\
  contains (lit "gz") p = false /\ ~ In (lit "comments") (map fst ex_data) /\
  exists fs', save_ [] p ex_data ex_notes = (fs', Ok p) /\
    get_ fs' p None true = Ok (LDict [(lit "comments", CText [lit "log.txt"; lit "run 1"; lit "second"]);
                                     (lit "a", CNum [1; 20]); (lit "b", CText [lit "3"; lit "x"])]) /\
    get_ fs' p (Some [lit "a"]) false = Ok (LArray [1; 20]).
Proof.
  split; [exact ex_savable|]. split.
  { intros h k [<-|[<-|[]]] [<-|[<-|[]]]; cbv; intros E; first [reflexivity|discriminate E]. }
  split; [reflexivity|]. split.
  { intros [H|[H|[]]]; discriminate. }
  eexists. split; [vm_compute; reflexivity|]. split; vm_compute; reflexivity.
Qed.

(** ** What goes wrong *)

(** A column longer than the first one loses its end; nothing is raised. *)
Lemma longer_cut : exists fs' d, save_ [] (lit "l") [(lit "a", [lit "1"]); (lit "b", [lit "1"; lit "2"])] [] = (fs', Ok (lit "l")) /\
  get_ fs' (lit "l") None false = Ok (LDict d) /\ gd_get streq d (lit "b") = Some (CNum [1]).
Proof. do 2 eexists. split; [vm_compute; reflexivity|]. split; vm_compute; reflexivity. Qed.

(** Headers that differ in a dash: one column comes back twice, the other not at all. *)
Lemma clash : exists fs' d, save_ [] (lit "l") [(lit "a-b", [lit "1"]); (lit "ab", [lit "2"])] [] = (fs', Ok (lit "l")) /\
  get_ fs' (lit "l") None false = Ok (LDict d) /\ gd_get streq d (lit "ab") = Some (CNum [1]).
Proof. do 2 eexists. split; [vm_compute; reflexivity|]. split; vm_compute; reflexivity. Qed.

(** A blank line before the headers: the headers are read as data. *)
Lemma blank_before : let fs := [(lit "l", [10] ++ lit "a b" ++ [10] ++ lit "1 2" ++ [10])] in
  get_header_list ascii_only no_gz fs (lit "l") false = Ok (Some [lit "a"; lit "b"]) /\
  exists d, get_ fs (lit "l") None false = Ok (LDict d) /\ gd_get streq d (lit "a") = Some (CText [lit "a"; lit "1"]).
Proof. split; [reflexivity|]. eexists. split; vm_compute; reflexivity. Qed.

(** A blank line at the end: IndexError. *)
Lemma blank_after : let fs := [(lit "l", lit "a b" ++ [10] ++ lit "1 2" ++ [10; 10])] in
  get_ fs (lit "l") None false = Err IndexError /\ num_data_lines ascii_only parse_nat fs (lit "l") = Ok 1.
Proof. split; vm_compute; reflexivity. Qed.

(** A note with "#" right before its text loses the first letter. *)
Lemma note_letter : exists fs' d, save_ [] (lit "l") [(lit "a", [lit "1"]); (lit "b", [lit "1"])] [lit "#second"] = (fs', Ok (lit "l")) /\
  get_ fs' (lit "l") None true = Ok (LDict d) /\ gd_get streq d (lit "comments") = Some (CText [lit "l"; lit "econd"]).
Proof. do 2 eexists. split; [vm_compute; reflexivity|]. split; vm_compute; reflexivity. Qed.

(** A column named "comments" is not returned. *)
Lemma comments_column : exists fs' d, save_ [] (lit "l") [(lit "a", [lit "1"]); (lit "b", [lit "1"]); (lit "comments", [lit "1"])] [] = (fs', Ok (lit "l")) /\
  get_ fs' (lit "l") None false = Ok (LDict d) /\ gd_get streq d (lit "comments") = None.
Proof. do 2 eexists. split; [vm_compute; reflexivity|]. split; vm_compute; reflexivity. Qed.

(** An empty file: UnboundLocalError; an empty note: the file is cut and IndexError raised. *)
Lemma empty_file sub keep : get_ [(lit "l", [])] (lit "l") sub keep = Err NameError.
Proof. destruct sub; reflexivity. Qed.
Lemma empty_note fs p data notes k col : least k (map fst data) -> gd_get streq data k = Some col ->
  save_ fs p data ([] :: notes) = (gd_set streq fs p (lit "# " ++ p ++ [10]), Err IndexError).
Proof.
  intros L G. destruct (least_first _ _ L) as (ks & E). unfold save_log_data. rewrite E.
  assert (E0 : py_get (k :: ks) 0 = Ok k) by reflexivity. rewrite E0. cbn [bind].
  unfold gd_lookup. rewrite G. reflexivity.
Qed.

(** ** get_formatted_data *)
Section formatted.
  Variable uspace : Z -> bool.
  Context {F : Type} (float_of : pystr -> option F) (int_of : pystr -> option Z).

  Lemma join_trims ws : Forall (wordy uspace) ws -> trims uspace (join [sp] ws) (join [sp] ws).
  Proof.
    intros H. split.
    - exists [], []. split; [intros ? []|split; [intros ? []|]]. now rewrite app_nil_r.
    - destruct (join [sp] ws) as [|c t] eqn:E; [exact I|]. split.
      + destruct H as [|w ws [W N] H]; [discriminate|]. destruct w as [|a w]; [easy|].
        destruct ws; cbn in E; injection E as <- _; apply N; now left.
      + rewrite <- E. clear E c t. induction H as [|w ws [W N] H IH]; [reflexivity|]. destruct ws as [|w' ws].
        * cbn [join]. apply N. destruct (exists_last W) as (u & d & ->). rewrite last_last. apply in_or_app. right. now left.
        * cbn [join] in *. rewrite app_assoc. set (r := match ws with [] => w' | _ => _ end) in *.
          assert (Hr : r <> []).
          { inversion H as [|? ? [W' _] _]; subst. unfold r. destruct ws; [exact W'|]. destruct w'; [easy|discriminate]. }
          destruct (exists_last Hr) as (u & d & Eu). rewrite Eu in *. rewrite app_assoc, last_last. rewrite last_last in IH. exact IH.
  Qed.

  Lemma mapM_seq {A B} (f : A -> B) : forall (l pre : list A),
    mapM (fun c => match c with Some i => do d <- py_get (pre ++ l) i; Ok (f d) | None => Err KeyError end)
      (map (fun i => Some (Z.of_nat i)) (seq (length pre) (length l))) = Ok (map f l).
  Proof.
    induction l as [|x l IH]; intros pre; [reflexivity|]. cbn [length seq map mapM].
    rewrite (py_get_nth (pre ++ x :: l) (length pre) x).
    - cbn [bind]. specialize (IH (pre ++ [x])). rewrite <- app_assoc, app_length in IH. cbn [app length] in IH.
      rewrite Nat.add_1_r in IH. rewrite IH. reflexivity.
    - rewrite nth_error_app2, Nat.sub_diag by lia. reflexivity.
  Qed.

  Theorem formatted_line ws : ws <> [] -> Forall (wordy uspace) ws ->
    get_formatted_data uspace float_of int_of (join [sp] ws ++ [nl]) None = Ok (map (format_datum float_of int_of) ws).
  Proof.
    intros N H. unfold get_formatted_data.
    assert (E : strip_s uspace (join [sp] ws ++ [nl]) = join [sp] ws).
    { apply trims_fun. apply (trims_pad uspace [] (join [sp] ws) [nl]); [intros ? []|now apply blank_one|now apply join_trims]. }
    rewrite E, split_join; [|exact N|].
    - change ws with ([] ++ ws) at 2. generalize (mapM_seq (format_datum float_of int_of) ws []). cbn [app length].
      intros M. rewrite <- M. clear. generalize (seq 0 (length ws)). intros l.
      induction l as [|i l IH]; [reflexivity|]. cbn [map mapM]. now rewrite IH.
    - revert H. apply Forall_impl. intros w [_ Hw] Hs. specialize (Hw _ Hs). discriminate.
  Qed.

  Theorem formatted_words ws : ws <> [] -> Forall (wordy uspace) ws ->
    exists l, get_formatted_data uspace float_of int_of (join [32] ws ++ [10]) None = Ok l /\
    Forall2 (fun w d => match d with
      | DFloat f => In 46 w /\ float_of w = Some f
      | DInt m => ~ In 46 w /\ int_of w = Some m
      | DStr s => s = w /\ (In 46 w -> float_of w = None) /\ (~ In 46 w -> int_of w = None) end) ws l.
  Proof.
    intros N H. exists (map (format_datum float_of int_of) ws). split; [now apply formatted_line|]. clear.
    induction ws as [|w ws IH]; constructor; [|exact IH]. unfold format_datum.
    destruct (has_char dot w) eqn:E.
    - apply has_char_in in E. destruct (float_of w) eqn:Ef; [split; [exact E|reflexivity]|].
      split; [reflexivity|]. split; [intros _; reflexivity|]. intros X. now elim X.
    - assert (E' : ~ In 46 w) by (intros X; apply has_char_in in X; change dot with 46 in E; congruence).
      destruct (int_of w) eqn:Ei; [split; [exact E'|reflexivity]|].
      split; [reflexivity|]. split; [intros X; now elim E'|intros _; reflexivity].
  Qed.
End formatted.
