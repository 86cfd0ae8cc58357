(** C76: examples. *)
From Verif Require Import Model.Jobs Spec.JobsSpec Proofs.StrFacts Proofs.DictFacts Proofs.LogDataFacts Proofs.LogSave Proofs.LogEx Proofs.JobsFacts Proofs.JobsMore Proofs.JobLogs.
Open Scope Z_scope.

Definition my_jobs : jobset := JobSet (lit "logs") true 20 0.
Definition queue_jobs : jobset := JobSet (lit "logs") false 20 0.
(** a queue that counts *)
Definition counting (i : nat) (cmd : pystr) : option pystr := Some (str_of_int (Z.of_nat i) ++ [10]).
Definition my_options (platforms : list pystr) : list (pystr * list jval) :=
  [ (lit "base_dir", [JStr (lit "/data")]); (lit "platform", map JStr platforms); (lit "protocol", [JStr (lit "bib"); JStr (lit "bib_book1")]);
    (lit "model", [JStr (lit "FastCTW"); JStr (lit "PTW_FastCTW")]); (lit "depth", [JInt 16; JInt 32; JInt 48]) ].

Lemma logs_safe : Forall safe (lit "logs").
Proof. apply Forall_forall. intros c I. cbn in I. unfold safe. decompose [or] I; subst; try lia; contradiction. Qed.

Lemma nodup_keys (l : list pystr) : (fix go (l : list pystr) := match l with [] => true | x :: r => negb (existsb (streq x) r) && go r end) l = true -> NoDup l.
Proof.
  induction l as [|x l IH]; intros H; constructor; apply andb_prop in H as [H1 H2].
  - intros I. apply negb_true_iff in H1. rewrite <- not_true_iff_false in H1. apply H1. apply existsb_exists. exists x. split; [exact I|apply same_key].
  - now apply IH.
Qed.
Lemma lit_no c (s : pystr) : forallb (fun d => negb (d =? c)) s = true -> ~ In c s.
Proof. rewrite forallb_forall. intros H I. apply H in I. now rewrite Z.eqb_refl in I. Qed.

Lemma my_has_options p : Forall (fun s => ~ In 10 s) p -> has_options (my_options p).
Proof.
  intros P. split; [apply nodup_keys; reflexivity|]. split.
  - intros k [<-|[<-|[<-|[<-|[]]]]].
    + exists [lit "/data"]. split; [now left|]. constructor; [now apply lit_no|constructor].
    + exists p. split; [right; now left|exact P].
    + exists [lit "bib"; lit "bib_book1"]. split; [do 2 right; now left|]. constructor; [now apply lit_no|constructor; [now apply lit_no|constructor]].
    + exists [lit "FastCTW"; lit "PTW_FastCTW"]. split; [do 3 right; now left|]. constructor; [now apply lit_no|constructor; [now apply lit_no|constructor]].
  - exists [16; 32; 48]. do 4 right. now left.
Qed.
Lemma options_ex : Forall safe (js_log_name my_jobs) /\ has_options (my_options [lit "calgary"; lit "other"]).
Proof. split; [exact logs_safe|]. apply my_has_options. constructor; [now apply lit_no|constructor; [now apply lit_no|constructor]]. Qed.

Lemma my_keys p : NoDup (map fst (my_options p)).
Proof. apply nodup_keys; reflexivity. Qed.
Lemma my_plain p : plain_options (my_options p).
Proof.
  split; [|split].
  - intros vs s I J. apply (in_get streq streq_spec _ _ _ (my_keys p)) in I. injection I as <-.
    destruct J as [[= <-]|[[= <-]|[]]]; (split; [now apply lit_no|discriminate]).
  - intros vs s I J. apply (in_get streq streq_spec _ _ _ (my_keys p)) in I. injection I as <-.
    destruct J as [[= <-]|[[= <-]|[]]]; now apply lit_no.
  - intros vs n I J. apply (in_get streq streq_spec _ _ _ (my_keys p)) in I. injection I as <-.
    destruct J as [[= <-]|[[= <-]|[[= <-]|[]]]]; lia.
Qed.

Lemma kept_ex : has_options (my_options [lit "calgary"]) /\ plain_options (my_options [lit "calgary"]) /\
  Forall (fun p => NoDup (snd p)) (my_options [lit "calgary"]) /\
  (forall k vs, In (k, vs) (my_options [lit "calgary"]) -> ~ In k [lit "protocol"; lit "model"; lit "depth"] -> (length vs <= 1)%nat).
Proof.
  split; [apply my_has_options; constructor; [now apply lit_no|constructor]|]. split; [apply my_plain|]. split.
  - repeat (apply Forall_cons; [cbn [snd map]; repeat constructor; cbn; intuition discriminate|]). apply Forall_nil.
  - intros k vs I N. destruct I as [[= <- <-]|[[= <- <-]|[[= <- <-]|[[= <- <-]|[[= <- <-]|[]]]]]]; cbn [length map]; try lia;
      destruct N; cbn; tauto.
Qed.

Lemma counting_distinct : forall i1 i2 c1 c2 id, queue_id ascii_only counting queue_jobs i1 c1 id -> queue_id ascii_only counting queue_jobs i2 c2 id -> i1 = i2.
Proof.
  intros i1 i2 c1 c2 id Q1 Q2. unfold queue_id, counting in *. cbn [js_debug queue_jobs] in *.
  assert (T : forall i, trims ascii_only (str_of_int (Z.of_nat i) ++ [10]) (str_of_int (Z.of_nat i))).
  { intros i. apply (trims_pad ascii_only [] _ [10]); [intros ? []|intros c [<-|[]]; reflexivity|]. apply trimmed.
    assert (K : forall c, In c (str_of_int (Z.of_nat i)) -> space ascii_only c = false).
    { intros c I. apply int_chars in I. unfold space. replace (c <? 128) with true by (symmetry; apply Z.ltb_lt; lia).
      destruct I as [I| ->]; [|reflexivity]. apply digit_not_space. now apply digit_range. }
    destruct (str_of_int (Z.of_nat i)) as [|c s] eqn:E; [exact Logic.I|]. split; [apply K; now left|].
    apply K. rewrite (app_removelast_last 0 (l := c :: s)) at 2 by discriminate. apply in_or_app. right. now left. }
  pose proof (T i1) as T1. pose proof (T i2) as T2. apply trims_iff in T1, T2, Q1, Q2.
  assert (E : str_of_int (Z.of_nat i1) = str_of_int (Z.of_nat i2)) by congruence. apply digits_same in E; lia.
Qed.
Lemma numbered_ex : has_options (my_options [lit "calgary"; lit "other"]) /\ plain_options (my_options [lit "calgary"; lit "other"]) /\
  forall i1 i2 c1 c2 id, queue_id ascii_only counting queue_jobs i1 c1 id -> queue_id ascii_only counting queue_jobs i2 c2 id -> i1 = i2.
Proof. split; [apply options_ex|]. split; [apply my_plain|exact counting_distinct]. Qed.

(** Jobs that differ in the platform only. *)
Definition two_platforms : list (pystr * list jval) :=
  [ (lit "base_dir", [JStr (lit "d")]); (lit "platform", [JStr (lit "x"); JStr (lit "y")]); (lit "protocol", [JStr (lit "p")]);
    (lit "model", [JStr (lit "m")]); (lit "depth", [JInt 1]) ].
Lemma overwritten uspace qsub : exists fs' s1 s2, run uspace qsub my_jobs [] two_platforms = (fs', Ok [s1; s2]) /\
  sub_path s1 = sub_path s2 /\ sub_script s1 <> sub_script s2 /\ fs' = [(sub_path s2, sub_script s2)].
Proof.
  eexists _, (Submission _ _ _), (Submission _ _ _). split; [vm_compute; reflexivity|]. split; [reflexivity|]. split; [discriminate|reflexivity].
Qed.

Lemma log_dir_ js : exists d, log_dir js = Ok d /\ (forall c, In c d <-> In c (js_log_name js) /\ safe c) /\ (Forall safe (js_log_name js) -> d = js_log_name js).
Proof. exists (FileNames.keep_allowed (js_log_name js)). split; [apply log_dir_eq|]. split; [intros c; apply FileNamesFacts.keep_in|apply FileNamesFacts.keep_id]. Qed.
Lemma slash_lost : log_dir (JobSet (lit "runs/today") true 20 0) = Ok (lit "runstoday").
Proof. reflexivity. Qed.

Definition a_job : job := Job (lit "/data") (lit "calgary") (lit "bib") (lit "FastCTW") 16.
Lemma a_job_plain : plain_job a_job.
Proof. repeat split; try (now apply lit_no); try discriminate; cbn; lia. Qed.

Definition some_figures : figures := Figures (lit "23.4567") (lit "26097") (lit "1.87653") (lit "12.345678") (lit "8.801234") (lit "0.0412").
Definition z_lines (nodes : option pystr) : list pystr :=
  z_stats (lit "23.4567") (lit "26097") (lit "1.87653") (lit "12.345678") (lit "8.801234") nodes (lit " 0.0412").
Definition end_line : pystr := lit "Completed run with exit code " ++ lit "0" ++ lit " at: " ++ lit "Sun Nov 15 12:00:00 MST 2015" ++ [10].
Definition log_text (nodes : option pystr) : pystr := concat ([lit "Starting run at: today" ++ [10]] ++ z_lines nodes ++ [end_line]).

Lemma ex_finished nodes : finished ascii_only some_figures nodes (log_text nodes).
Proof.
  exists [lit "Starting run at: today" ++ [10]], (z_lines nodes), (lit "0"), (lit "Sun Nov 15 12:00:00 MST 2015"), end_line.
  split; [reflexivity|]. split; [reflexivity|]. split.
  { constructor; [|constructor]. exists (lit "Starting run at: today"). split; [reflexivity|]. split; now apply lit_no. }
  split; [|repeat split; now apply lit_no].
  exists (lit "23.4567"), (lit "1.87653"), (lit "12.345678"), (lit "8.801234"), (lit " 0.0412").
  split; [exists 0%nat; split; [reflexivity|]; split; [apply wordy_dec; (discriminate || reflexivity)|now apply lit_no]|].
  split; [apply wordy_dec; (discriminate || reflexivity)|]. split; [now apply lit_no|].
  split; [exists 0%nat; split; [reflexivity|]; split; [apply wordy_dec; (discriminate || reflexivity)|now apply lit_no]|].
  split; [exists 0%nat; split; [reflexivity|]; split; [apply wordy_dec; (discriminate || reflexivity)|now apply lit_no]|].
  split; [exists 0%nat; split; [reflexivity|]; split; [apply wordy_dec; (discriminate || reflexivity)|now apply lit_no]|].
  split; [exists 1%nat; split; [reflexivity|]; split; [apply wordy_dec; (discriminate || reflexivity)|now apply lit_no]|].
  reflexivity.
Qed.

Lemma stats_ex : final 7 ([lit "Starting run at: today" ++ [10]] ++ z_lines None ++ [end_line]) (z_lines None ++ [end_line]) /\
  Forall is_line ([lit "Starting run at: today" ++ [10]] ++ z_lines None ++ [end_line]) /\
  contains (lit "Starting") end_line = false /\ contains (lit "killed") end_line = false /\
  last_tells ascii_only (z_lines None ++ [end_line]) (lit "Size") (lit "26097").
Proof.
  split; [exists [lit "Starting run at: today" ++ [10]]; split; [reflexivity|now left]|]. split; [|split; [reflexivity|split; [reflexivity|]]].
  - constructor; [exists (lit "Starting run at: today"); split; [reflexivity|]; split; now apply lit_no|]. apply Forall_app. split.
    + destruct (ex_finished None) as (b & ls & c & d & l & _ & _ & _ & P & _). destruct P as (r & bi & t & s & m & N1 & N2 & N3 & N4 & N5 & N6 & N7 & E).
      assert (P : printed ascii_only some_figures None (z_lines None)).
      { exists (lit "23.4567"), (lit "1.87653"), (lit "12.345678"), (lit "8.801234"), (lit " 0.0412").
        split; [exists 0%nat; split; [reflexivity|]; split; [apply wordy_dec; (discriminate || reflexivity)|now apply lit_no]|].
        split; [apply wordy_dec; (discriminate || reflexivity)|]. split; [now apply lit_no|].
        split; [exists 0%nat; split; [reflexivity|]; split; [apply wordy_dec; (discriminate || reflexivity)|now apply lit_no]|].
        split; [exists 0%nat; split; [reflexivity|]; split; [apply wordy_dec; (discriminate || reflexivity)|now apply lit_no]|].
        split; [exists 0%nat; split; [reflexivity|]; split; [apply wordy_dec; (discriminate || reflexivity)|now apply lit_no]|].
        split; [exists 1%nat; split; [reflexivity|]; split; [apply wordy_dec; (discriminate || reflexivity)|now apply lit_no]|].
        reflexivity. }
      apply (printed_steps ascii_only some_figures None _ P I).
    + constructor; [|constructor]. exists (lit "Completed run with exit code 0 at: Sun Nov 15 12:00:00 MST 2015"). split; [reflexivity|]. split; now apply lit_no.
  - exists [z_line (lit "Ratio:") (lit "23.4567%")], (z_line (lit "Size:") (lit "26097 bytes")),
      [z_line (lit "Bits per Byte:") (lit "1.87653"); z_line (lit "Time:") (lit "12.345678s"); z_line (lit "KB/s:") (lit "8.801234"); z_line (lit "Memory Used:") (lit " 0.0412 MB"); end_line].
    split; [reflexivity|]. split.
    + apply (tells_line ascii_only (lit "Size")); [discriminate|reflexivity|reflexivity|now apply lit_no|]. eexists. reflexivity.
    + intros l v I T.
      assert (K : forall d, exists k w, stat_step ascii_only d l = gd_set streq d k (SText w) /\ k <> lit "Size").
      { intros d. destruct I as [<-|[<-|[<-|[<-|[<-|[]]]]]]; (eexists _, _; split; [reflexivity|discriminate]). }
      destruct (K []) as (k & w & E & N). rewrite (step_tells _ _ _ _ _ T) in E. cbn in E. injection E as E _. now symmetry in E.
Qed.

Definition log_files : filesys := [(lit "logs/bib-FastCTW-16.123.log", log_text None)].
Lemma results_ex : log_name a_job (lit "123") = lit "bib-FastCTW-16.123.log" /\ plain_job a_job /\ ~ In 46 (j_protocol a_job) /\ ~ In 46 (j_model a_job) /\
  exists text, gd_get streq log_files (lit "logs/" ++ log_name a_job (lit "123")) = Some text /\ finished ascii_only some_figures None text.
Proof.
  split; [reflexivity|]. split; [exact a_job_plain|]. split; [now apply lit_no|]. split; [now apply lit_no|].
  exists (log_text None). split; [reflexivity|apply ex_finished].
Qed.

(** Two runs of one job: one row. Names with a dot: rows under the part before it. *)
Definition two_runs : filesys :=
  [ (lit "logs/a-b-1.5.log", lit "x:1" ++ [10]); (lit "logs/a-b-1.6.log", lit "x:2" ++ [10]);
    (lit "logs/f.txt-b-1.7.log", lit "x:3" ++ [10]); (lit "logs/f.bin-b-1.8.log", lit "x:4" ++ [10]) ].
Lemma rows_lost : exists r6 r8, get_all_logs ascii_only two_runs [lit "a-b-1.5.log"; lit "a-b-1.6.log"; lit "f.txt-b-1.7.log"; lit "f.bin-b-1.8.log"] =
  Ok [(lit "a-b-1", r6); (lit "f", r8)] /\ gd_get streq r6 (lit "x") = Some (SText (lit "2")) /\ gd_get streq r8 (lit "filename") = Some (SText (lit "f.bin-b-1.8.log")).
Proof. eexists _, _. split; [vm_compute; reflexivity|]. split; reflexivity. Qed.

Lemma spoiled : get_all_logs ascii_only log_files [lit "bib-FastCTW-16.123.log"; lit "notes.log"] = Err ValueError.
Proof. reflexivity. Qed.

Lemma flaked_ex : contains (lit "Starting") (lit "Starting run at: now" ++ [10]) = true /\
  contains (lit "Starting") (lit "=>> PBS: job killed: walltime 1233 exceeded limit 1200" ++ [10]) = false /\
  contains (lit "killed") (lit "=>> PBS: job killed: walltime 1233 exceeded limit 1200" ++ [10]) = true /\
  after_colon (lit "=>> PBS: job killed: walltime 1233 exceeded limit 1200" ++ [10]) (lit " walltime 1233 exceeded limit 1200" ++ [10]) /\
  trims ascii_only (lit " walltime 1233 exceeded limit 1200" ++ [10]) (lit "walltime 1233 exceeded limit 1200").
Proof.
  split; [reflexivity|]. split; [reflexivity|]. split; [reflexivity|]. split; [|now apply trims_iff].
  split; [now apply lit_no|]. right. now exists (lit "=>> PBS: job killed").
Qed.
