(** C76: submitting jobs. *)
From Verif Require Import Model.Jobs Spec.JobsSpec Proofs.StrFacts Proofs.DictFacts Proofs.ParamsFacts Proofs.ProtocolFacts Proofs.FileNamesFacts Proofs.LogDataFacts Proofs.LogSave.
Open Scope Z_scope.

Lemma same_key (s : pystr) : streq s s = true.
Proof. now apply streq_spec. Qed.

(** ** Texts cut at a character *)
Lemma cut_unique (c : Z) : forall a b x y : pystr, a ++ c :: x = b ++ c :: y -> ~ In c a -> ~ In c b -> a = b /\ x = y.
Proof.
  induction a as [|d a IH]; intros [|e b] x y E Na Nb; cbn [app] in E.
  - injection E as ->. now split.
  - injection E as -> _. destruct Nb. now left.
  - injection E as -> _. destruct Na. now left.
  - injection E as -> E. destruct (IH b x y E) as [-> ->]; [| |split; reflexivity];
      intros H; [apply Na|apply Nb]; now right.
Qed.

(** ** The directory of the logs *)
Lemma log_dir_eq js : log_dir js = Ok (keep_allowed (js_log_name js)).
Proof.
  unfold log_dir, get_dir_string, jobset_fields, jobset_attrs.
  cbn -[keep_allowed]. 
  destruct (keep_allowed (js_log_name js)) eqn:E; cbn; try reflexivity.
Qed.
Lemma log_dir_safe js : Forall safe (js_log_name js) -> log_dir js = Ok (js_log_name js).
Proof. intros H. rewrite log_dir_eq. now rewrite keep_id. Qed.

Lemma in_dir_eq dir name : Forall safe dir -> path_join2 dir name = in_dir dir name.
Proof.
  intros H. unfold path_join2, in_dir.
  assert (L : ends_with 47 dir = false).
  { unfold ends_with, starts_with. destruct (rev dir) as [|a l] eqn:E; [reflexivity|].
    apply Z.eqb_neq. rewrite Forall_forall in H. assert (I : In a dir) by (apply in_rev; rewrite E; now left).
    apply H in I. unfold safe in I. lia. }
  change slash with 47. rewrite L. unfold starts_with. destruct name as [|c n]; [now destruct dir|].
  cbn [is_prefix]. rewrite (Z.eqb_sym 47 c). destruct (c =? 47); cbn [andb].
  - destruct n; now destruct dir.
  - now destruct dir.
Qed.

(** ** Characters of texts *)
Lemma join2_in a b c : In c (path_join2 a b) -> In c a \/ In c b \/ c = 47.
Proof.
  unfold path_join2, slash. destruct (starts_with 47 b); [tauto|]. destruct a as [|x a]; [tauto|].
  destruct (ends_with 47 (x :: a)); intros I; apply in_app_or in I as [I|I]; try tauto.
  destruct I as [<-|I]; tauto.
Qed.
Lemma int_chars n c : In c (str_of_int n) -> 48 <= c <= 57 \/ c = 45.
Proof.
  unfold str_of_int. assert (K : forall m, 0 <= m -> In c (str_of_nat m) -> 48 <= c <= 57).
  { intros m Hm I. destruct (str_of_nat_spec m Hm) as (_ & D & _). rewrite forallb_forall in D. now apply digit_range, D. }
  destruct (Z.ltb_spec n 0); [|intros I; left; now apply (K n)].
  intros [<-|I]; [right; reflexivity|left; apply (K (- n)); [lia|exact I]].
Qed.
Lemma int_last n : exists s d, str_of_int n = s ++ [d] /\ 48 <= d <= 57.
Proof.
  assert (K : forall m, 0 <= m -> exists s d, str_of_nat m = s ++ [d] /\ 48 <= d <= 57).
  { intros m Hm. destruct (str_of_nat_spec m Hm) as (N & D & _). destruct (exists_last N) as (s & d & E).
    exists s, d. split; [exact E|]. rewrite E, forallb_app in D. apply andb_prop in D as [_ D]. cbn in D.
    rewrite andb_true_r in D. now apply digit_range. }
  unfold str_of_int. destruct (Z.ltb_spec n 0); [|now apply K].
  destruct (K (- n)) as (s & d & E & D); [lia|]. exists (dash :: s), d. rewrite E. now split.
Qed.
Lemma parts_in c s p x : In p (split c s) -> In x p -> In x s.
Proof.
  revert p. induction s as [|a s IH]; intros p; cbn [split].
  - intros [<-|[]] [].
  - destruct (a =? c).
    + intros [<-|I] J; [destruct J|]. right. now apply (IH p).
    + destruct (split c s) as [|w ws].
      * intros [<-|[]] [<-|[]]. now left.
      * intros [<-|I] J; [destruct J as [<-|J]; [now left|right; apply (IH w); [now left|exact J]]|].
        right. apply (IH p); [now right|exact J].
Qed.

(** ** One submission *)
Definition flat_job (j : job) : Prop :=
  ~ In 10 (j_base j) /\ ~ In 10 (j_platform j) /\ ~ In 10 (j_protocol j) /\ ~ In 10 (j_model j).

Lemma path_flat b p f : ~ In 10 b -> ~ In 10 p -> ~ In 10 f -> ~ In 10 (path_join b [p; f]).
Proof.
  intros Nb Np Nf I. cbn in I. apply join2_in in I as [I|[I|I]]; [|tauto|discriminate].
  apply join2_in in I as [I|[I|I]]; [tauto|tauto|discriminate].
Qed.
Lemma input_flat j : flat_job j -> ~ In 10 (input_file j).
Proof. intros (A & B & C & D). now apply path_flat. Qed.
Lemma parts_flat j : flat_job j -> ~ In 10 (join [32] (input_parts j)).
Proof.
  intros (A & B & C & D). unfold input_parts.
  assert (F : Forall (fun f => ~ In 10 f) (split 95 (j_protocol j))).
  { apply Forall_forall. intros f I J. apply C. exact (parts_in 95 _ f 10 I J). }
  intros I. enough (G : Forall (fun c => c <> 10) (join [32] (map (fun f => path_join (j_base j) [j_platform j; f]) (split 95 (j_protocol j))))).
  { rewrite Forall_forall in G. exact (G 10 I eq_refl). }
  apply join_forall; [repeat constructor; discriminate|]. clear I.
  induction F as [|f l Nf F IH]; cbn [map]; constructor; [|exact IH].
  apply Forall_forall. intros c I ->. revert I. now apply path_flat.
Qed.
Lemma join_snoc (l : list pystr) (a b : pystr) : l <> [] -> join [32] (l ++ [a; b]) = join [32] l ++ 32 :: a ++ 32 :: b.
Proof.
  induction l as [|x l IH]; [easy|]. intros _. destruct l as [|y l]; [reflexivity|].
  change ((x :: y :: l) ++ [a; b]) with (x :: ((y :: l) ++ [a; b])). rewrite join_cons by discriminate.
  rewrite (join_cons [32] x (y :: l)) by discriminate. rewrite IH by discriminate. now rewrite <- !app_assoc.
Qed.
Lemma parts_some j : input_parts j <> [].
Proof. unfold input_parts. pose proof (split_ne 95 (j_protocol j)). now destruct (split 95 (j_protocol j)). Qed.
Lemma cat_line j : join [32] (lit "cat" :: input_parts j ++ [lit ">"; input_file j]) =
  lit "cat " ++ join [32] (input_parts j) ++ lit " > " ++ input_file j.
Proof.
  pose proof (parts_some j) as P. rewrite join_cons by (now destruct (input_parts j)).
  rewrite join_snoc by exact P. reflexivity.
Qed.
Lemma int_flat n : ~ In 10 (str_of_int n).
Proof. intros I. apply int_chars in I. lia. Qed.
Lemma safe_flat s : Forall safe s -> ~ In 10 s.
Proof. rewrite Forall_forall. intros H I. apply H in I. unfold safe in I. lia. Qed.
Lemma name_flat j : flat_job j -> ~ In 10 (job_name j).
Proof.
  intros (_ & _ & C & D) I. unfold job_name in I. apply in_app_or in I as [I|[I|I]]; [tauto|discriminate|].
  apply in_app_or in I as [I|[I|I]]; [tauto|discriminate|]. now apply int_flat in I.
Qed.
Lemma app_flat (s t : pystr) : ~ In 10 s -> ~ In 10 t -> ~ In 10 (s ++ t).
Proof. intros A B I. apply in_app_or in I. tauto. Qed.
Lemma lit_flat (s : pystr) : forallb (fun c => negb (c =? 10)) s = true -> ~ In 10 s.
Proof. rewrite forallb_forall. intros H I. now apply H in I. Qed.

Lemma cons_flat (c : Z) (t : pystr) : c <> 10 -> ~ In 10 t -> ~ In 10 (c :: t).
Proof. intros A B [I|I]; [now subst c|tauto]. Qed.
Ltac flat := first [assumption | apply int_flat | apply lit_flat; reflexivity | apply app_flat; flat | apply cons_flat; [discriminate|flat]].

Definition the_script (js : jobset) (missing : bool) (j : job) : pystr :=
  join [10] ([lit "#!/bin/sh"; []] ++ job_directives js j ++ [[]] ++ [if missing then join [10] (make_input j) else []] ++
    job_commands false j).

Lemma script_lines js missing j : Forall safe (js_log_name js) -> flat_job j ->
  split 10 (the_script js missing j) =
  [lit "#!/bin/sh"; []] ++ job_directives js j ++ [[]] ++ (if missing then make_input j else [[]]) ++ job_commands false j.
Proof.
  intros S F. pose proof (safe_flat _ S) as S'. pose proof (input_flat j F) as I. pose proof (parts_flat j F) as P. pose proof (name_flat j F) as N.
  destruct F as (F1 & F2 & F3 & F4).
  assert (D : Forall (fun w => ~ In 10 w) (job_directives js j)).
  { unfold job_directives. repeat (apply Forall_cons; [flat|]). apply Forall_nil. }
  assert (C : Forall (fun w => ~ In 10 w) (job_commands false j)).
  { unfold job_commands, z_command. cbn [app join]. repeat (apply Forall_cons; [flat|]). apply Forall_nil. }
  assert (M : Forall (fun w => ~ In 10 w) (make_input j)).
  { unfold make_input. rewrite cat_line. repeat (apply Forall_cons; [flat|]). apply Forall_nil. }
  unfold the_script. rewrite split_join_gen by discriminate.
  rewrite !flat_map_app. assert (Fl : forall l : list pystr, Forall (fun w => ~ In 10 w) l -> flat_map (split 10) l = l).
  { induction 1 as [|w l Nw _ IH]; [reflexivity|]. cbn [flat_map]. rewrite IH, split_none by exact Nw. reflexivity. }
  rewrite (Fl _ D), (Fl _ C). f_equal. f_equal. f_equal. f_equal. cbn [flat_map]. rewrite app_nil_r.
  destruct missing; [|reflexivity]. now apply split_join.
Qed.

Lemma script_directives js missing j : Forall safe (js_log_name js) -> flat_job j ->
  directives (the_script js missing j) = job_directives js j.
Proof. intros S F. unfold directives. rewrite script_lines by assumption. now destruct missing. Qed.
Lemma script_commands js missing j : Forall safe (js_log_name js) -> flat_job j ->
  commands (the_script js missing j) = job_commands missing j.
Proof. intros S F. unfold commands. rewrite script_lines by assumption. now destruct missing. Qed.

Lemma template_eq js (missing : bool) j : Forall safe (js_log_name js) ->
  pbs_template js (job_name j)
    (lit "compress -m " ++ j_model j ++ lit " -d " ++ str_of_int (j_depth j) ++ [sp] ++ input_file j ++ [sp] ++ lit "/dev/null")
    (if missing then join [nl] (make_input j) else []) = Ok (the_script js missing j).
Proof.
  intros S. unfold pbs_template. rewrite log_dir_safe by exact S. cbn [bind]. reflexivity.
Qed.

Lemma lookup_get {A} (d : list (pystr * A)) k v : gd_get streq d k = Some v -> gd_lookup streq d k = Ok v.
Proof. unfold gd_lookup. now intros ->. Qed.

Lemma job_of_eq (fs : filesys) ps j : asks ps j ->
  job_of fs ps = Ok (job_name j,
    lit "compress -m " ++ j_model j ++ lit " -d " ++ str_of_int (j_depth j) ++ [sp] ++ input_file j ++ [sp] ++ lit "/dev/null",
    if negb (gd_mem streq fs (input_file j)) then join [nl] (make_input j) else []).
Proof.
  intros (A1 & A2 & A3 & A4 & A5). unfold job_of.
  rewrite (lookup_get _ _ _ A1), (lookup_get _ _ _ A2), (lookup_get _ _ _ A3), (lookup_get _ _ _ A4), (lookup_get _ _ _ A5).
  cbn [bind jpath jtext].
  change (path_join (j_base j) [j_platform j; j_protocol j]) with (input_file j).
  destruct (gd_mem streq fs (input_file j)); [reflexivity|]. cbn [negb].
  unfold make_input. rewrite cat_line.
  rewrite <- (app_assoc (lit "cat ")), <- (app_assoc (join [32] (input_parts j))), <- (app_assoc (lit " > ")). reflexivity.
Qed.

Lemma filter_get {A} (d : list (pystr * A)) p q :
  gd_get streq (filter (fun e => negb (streq (fst e) p)) d) q = if streq p q then None else gd_get streq d q.
Proof.
  induction d as [|[k v] d IH]; cbn [filter gd_get fst]; [now destruct (streq p q)|].
  destruct (streq k p) eqn:E; cbn [negb].
  - rewrite IH. apply streq_spec in E as ->. now destruct (streq p q) eqn:F.
  - cbn [gd_get]. rewrite IH. destruct (streq k q) eqn:F; [|reflexivity].
    destruct (streq p q) eqn:G; [|reflexivity]. apply streq_spec in F, G. subst. now rewrite same_key in E.
Qed.

Lemma rename_get (fs : filesys) p q t r : gd_get streq fs p = Some t ->
  gd_get streq (rename fs p q) r = if streq q r then Some t else if streq p r then None else gd_get streq fs r.
Proof. intros G. unfold rename. rewrite G. rewrite (get_set streq streq_spec), filter_get. reflexivity. Qed.

Lemma in_dir_app dir name t : name <> [] -> in_dir dir (name ++ t) = in_dir dir name ++ t.
Proof.
  intros N. unfold in_dir. destruct dir; [reflexivity|]. destruct name as [|c n]; [easy|].
  assert (E : is_prefix [47] ((c :: n) ++ t) = is_prefix [47] (c :: n)) by (cbn; now destruct (n ++ t), n).
  rewrite E. destruct (is_prefix [47] (c :: n)); [reflexivity|]. now rewrite <- app_assoc.
Qed.
Lemma name_some j : job_name j <> [].
Proof. unfold job_name. now destruct (j_protocol j). Qed.

(** a file of a job that waits is no script of a job *)
Lemma temp_last dir j : exists s d, in_dir dir (job_name j) = s ++ [d] /\ d <> 104.
Proof.
  destruct (int_last (j_depth j)) as (s & d & E & D).
  assert (K : exists s, job_name j = s ++ [d]).
  { unfold job_name. rewrite E. exists (j_protocol j ++ 45 :: j_model j ++ 45 :: s).
    rewrite <- !app_assoc. cbn [app]. now rewrite <- app_assoc. }
  destruct K as (n & En). unfold in_dir. rewrite En. destruct dir as [|c dir].
  - exists n, d. split; [reflexivity|lia].
  - destruct (is_prefix [47] (n ++ [d])); [exists n, d; split; [reflexivity|lia]|].
    exists ((c :: dir) ++ 47 :: n), d. split; [now rewrite <- app_assoc|lia].
Qed.
Lemma temp_script dir j dir' j' (id : pystr) : in_dir dir (job_name j) <> in_dir dir' (job_name j' ++ lit "." ++ id ++ lit ".sh").
Proof.
  destruct (temp_last dir j) as (s & d & -> & D). rewrite in_dir_app by apply name_some.
  replace (in_dir dir' (job_name j') ++ lit "." ++ id ++ lit ".sh") with ((in_dir dir' (job_name j') ++ lit "." ++ id ++ lit ".s") ++ [104]).
  - intros E. apply app_inj_tail in E as [_ ->]. now apply D.
  - rewrite <- !app_assoc. reflexivity.
Qed.

Section run.
  Variable uspace : Z -> bool.
  Variable qsub : nat -> pystr -> option pystr.
  Variable js : jobset.
  Hypothesis Sf : Forall safe (js_log_name js).

  Lemma submit_one (fs : filesys) i j : flat_job j -> exists s fs',
    submit_job uspace qsub js fs i (job_name j)
      (lit "compress -m " ++ j_model j ++ lit " -d " ++ str_of_int (j_depth j) ++ [sp] ++ input_file j ++ [sp] ++ lit "/dev/null")
      (if negb (gd_mem streq fs (input_file j)) then join [nl] (make_input j) else []) = (fs', Ok s) /\
    submitted uspace qsub js fs i j s /\ leaves js fs j s fs'.
  Proof.
    intros F. set (missing := negb (gd_mem streq fs (input_file j))). unfold submit_job.
    rewrite template_eq by exact Sf. rewrite log_dir_safe by exact Sf. rewrite !in_dir_eq by exact Sf.
    set (tmp := in_dir (js_log_name js) (job_name j)). set (sh := the_script js missing j).
    set (pname := if js_debug js then lit "DEBUG" else match qsub i (lit "qsub " ++ tmp) with Some p => strip_s uspace p | None => lit "FAILED" end).
    set (path := in_dir (js_log_name js) (job_name j ++ lit "." ++ pname ++ lit ".sh")).
    eexists _, _. split; [reflexivity|]. split.
    - constructor; cbn [sub_cmd sub_path sub_script].
      + reflexivity.
      + exists pname. split; [|reflexivity]. unfold queue_id, pname. destruct (js_debug js); [reflexivity|].
        fold tmp. destruct (qsub i (lit "qsub " ++ tmp)); [apply trims_strip|reflexivity].
      + unfold sh, the_script. cbn [app join]. eexists. reflexivity.
      + now apply script_directives.
      + intros b Hb. assert (missing = b) as <-; [|now apply script_commands].
        unfold missing, gd_mem. destruct (gd_get streq fs (input_file j)) eqn:G; cbn [negb].
        * destruct b; [|reflexivity]. now destruct Hb as [Hb _]; specialize (Hb eq_refl).
        * symmetry. now apply Hb.
    - assert (G : gd_get streq (gd_set streq fs tmp sh) tmp = Some sh) by (rewrite (get_set streq streq_spec); now rewrite same_key).
      assert (N : tmp <> path) by apply temp_script.
      unfold leaves; cbn [sub_path sub_script]; fold tmp. split; [|split].
      + rewrite (rename_get _ _ _ _ _ G). now rewrite same_key.
      + rewrite (rename_get _ _ _ _ _ G). destruct (streq path tmp) eqn:E; [apply streq_spec in E; now destruct N|].
        now rewrite same_key.
      + intros p N1 N2. rewrite (rename_get _ _ _ _ _ G). destruct (streq path p) eqn:E; [apply streq_spec in E; now destruct N1|].
        destruct (streq tmp p) eqn:E2; [apply streq_spec in E2; now destruct N2|].
        rewrite (get_set streq streq_spec). now rewrite E2.
  Qed.

  Lemma run_sets_ok : forall sets (fs : filesys) i, Forall (fun ps => exists j, asks ps j /\ flat_job j) sets ->
    exists fs' subs, run_sets uspace qsub js fs i sets = (fs', Ok subs) /\ history uspace qsub js fs i sets subs fs'.
  Proof.
    induction sets as [|ps sets IH]; intros fs i H.
    - exists fs, []. split; [reflexivity|constructor].
    - inversion H as [|? ? (j & A & F) H']; subst. cbn [run_sets]. rewrite (job_of_eq fs ps j A).
      destruct (submit_one fs i j F) as (s & fs1 & E & Su & L). rewrite E.
      destruct (IH fs1 (S i) H') as (fs2 & subs & E2 & Hi). rewrite E2. cbn [bind].
      exists fs2, (s :: subs). split; [reflexivity|]. econstructor; eassumption.
  Qed.
End run.
