(** C76: reading the logs of jobs. *)
From Verif Require Import Model.Jobs Spec.JobsSpec Proofs.StrFacts Proofs.DictFacts Proofs.ProtocolFacts Proofs.LogDataFacts Proofs.LogSave Proofs.JobsFacts Proofs.JobsMore.
Open Scope Z_scope.

(** ** The name of a log *)
Lemma split_cut c (a x : pystr) : ~ In c a -> split c (a ++ c :: x) = a :: split c x.
Proof. intros N. rewrite split_app, split_none by exact N. reflexivity. Qed.

Theorem params_ j (rest : pystr) : plain_job j -> exists d, pull_params_from_name (job_name j ++ 46 :: rest) = Ok d /\
  map fst d = [lit "filename"; lit "protocol"; lit "model"; lit "depth"] /\
  gd_get streq d (lit "filename") = Some (SText (job_name j ++ 46 :: rest)) /\
  gd_get streq d (lit "protocol") = Some (SText (j_protocol j)) /\
  gd_get streq d (lit "model") = Some (SText (j_model j)) /\
  gd_get streq d (lit "depth") = Some (SText (str_of_int (j_depth j))).
Proof.
  intros (A & B & C & _). unfold pull_params_from_name. set (f := job_name j ++ 46 :: rest).
  assert (E : exists x l, split dash f = j_protocol j :: j_model j :: (str_of_int (j_depth j) ++ 46 :: x) :: l).
  { unfold f, job_name, dash. rewrite <- app_assoc. cbn [app]. rewrite split_cut by exact A.
    rewrite <- app_assoc. cbn [app]. rewrite split_cut by exact B.
    destruct (digits_dot (j_depth j) C) as [_ D].
    assert (K : forall s : pystr, ~ In 45 s -> exists x l, split 45 (s ++ 46 :: rest) = (s ++ 46 :: x) :: l).
    { induction s as [|c s IH]; intros N; cbn [app split].
      - cbn. pose proof (split_ne 45 rest). destruct (split 45 rest) as [|w ws]; [easy|]. now exists w, ws.
      - destruct (Z.eqb_spec c 45) as [->|_]; [destruct N; now left|].
        destruct IH as (x & l & ->); [intros H; apply N; now right|]. now exists x, l. }
    destruct (K _ D) as (x & l & ->). now exists x, l. }
  destruct E as (x & l & ->). eexists. split; [reflexivity|]. split; [reflexivity|].
  split; [reflexivity|]. split; [reflexivity|]. split; [reflexivity|].
  cbn -[split str_of_int]. unfold dot. rewrite split_cut by (now apply digits_dot). reflexivity.
Qed.

Theorem params_short_ (f a b : pystr) : ~ In 45 a -> ~ In 45 b -> f = a \/ f = a ++ 45 :: b ->
  pull_params_from_name f = Err ValueError.
Proof.
  intros Na Nb H. unfold pull_params_from_name, dash. destruct H as [->| ->].
  - now rewrite split_none.
  - rewrite split_cut by exact Na. now rewrite split_none.
Qed.

(** ** The figures *)
Section stats.
  Variable uspace : Z -> bool.
  Notation tells := (tells uspace).
  Notation stat_step := (stat_step uspace).

  Lemma split_cons c (s : pystr) : split c s = [s] /\ ~ In c s \/ exists a b, s = a ++ c :: b /\ ~ In c a /\ split c s = a :: split c b.
  Proof.
    destruct (in_dec Z.eq_dec c s) as [I|N]; [|left; now rewrite split_none].
    right. induction s as [|d s IH]; [easy|]. destruct (Z.eq_dec d c) as [->|Nd].
    - exists [], s. split; [reflexivity|]. split; [intros []|]. cbn [split]. now rewrite Z.eqb_refl.
    - destruct I as [->|I]; [easy|]. destruct (IH I) as (a & b & E & Na & Es). exists (d :: a), b.
      split; [now rewrite E|]. split; [intros [H|H]; [easy|tauto]|]. cbn [split]. rewrite Es.
      apply Z.eqb_neq in Nd. now rewrite Nd.
  Qed.

  Lemma step_tells data l k v : tells l k v -> stat_step data l = gd_set streq data k (SText v).
  Proof.
    intros (key & r & tail & ws & -> & Nk & Nr & T & Tr & R). unfold Jobs.stat_step, colon.
    rewrite split_cut by exact Nk. apply trims_iff in Tr. apply reads_iff in R.
    destruct T as [-> | (t & ->)].
    - rewrite app_nil_r, split_none by exact Nr. now rewrite R, Tr.
    - rewrite split_cut by exact Nr. now rewrite R, Tr.
  Qed.
  Lemma step_silent data l : (forall k v, ~ tells l k v) -> stat_step data l = data.
  Proof.
    intros N. unfold Jobs.stat_step, colon. destruct (split_cons 58 l) as [[E _]|(key & b & E & Nk & Es)]; [now rewrite E|].
    rewrite Es. destruct (split_cons 58 b) as [[E2 Nb]|(r & t & E2 & Nr & Es2)].
    - rewrite E2. destruct (words uspace b) as [|w ws] eqn:W; [reflexivity|]. exfalso.
      apply (N (strip_s uspace key) w). exists key, b, [], ws. rewrite app_nil_r. repeat split; try assumption; try (now left); try apply trims_strip.
      now apply reads_iff.
    - rewrite Es2. destruct (words uspace r) as [|w ws] eqn:W; [reflexivity|]. exfalso.
      apply (N (strip_s uspace key) w). exists key, r, (58 :: t), ws. rewrite E, E2. repeat split; try assumption; try (right; now exists t); try apply trims_strip.
      now apply reads_iff.
  Qed.
  Lemma tells_dec l : (exists k v, tells l k v) \/ forall k v, ~ tells l k v.
  Proof.
    destruct (split_cons 58 l) as [[E Nl]|(key & b & E & Nk & Es)].
    - right. intros k v (key & r & tail & ws & -> & _). apply Nl. apply in_or_app. right. now left.
    - assert (K : exists r tail, b = r ++ tail /\ ~ In 58 r /\ (tail = [] \/ exists t, tail = 58 :: t)).
      { destruct (split_cons 58 b) as [[_ Nb]|(r & t & E2 & Nr & _)].
        - exists b, []. rewrite app_nil_r. repeat split; try assumption. now left.
        - exists r, (58 :: t). repeat split; try assumption. right. now exists t. }
      destruct K as (r & tail & E2 & Nr & T). destruct (words uspace r) as [|w ws] eqn:W.
      + right. intros k v (key' & r' & tail' & ws & E3 & Nk' & Nr' & T' & _ & R). subst l.
        apply cut_unique in E3 as [<- E3]; [|assumption|assumption]. rewrite E2 in E3.
        assert (r = r') as <-.
        { destruct T as [-> | (t & ->)], T' as [-> | (t' & ->)].
          - now rewrite !app_nil_r in E3.
          - rewrite app_nil_r in E3. destruct Nr. rewrite E3. apply in_or_app. right. now left.
          - rewrite app_nil_r in E3. destruct Nr'. rewrite <- E3. apply in_or_app. right. now left.
          - now apply cut_unique in E3 as [<- _]. }
        apply reads_iff in R. now rewrite W in R.
      + left. exists (strip_s uspace key), w, key, r, tail, ws. rewrite E, E2. repeat split; try assumption; try apply trims_strip.
        now apply reads_iff.
  Qed.
  Lemma tells_fun l k v k' v' : tells l k v -> tells l k' v' -> k = k' /\ v = v'.
  Proof.
    intros H1 H2. pose proof (step_tells [] l k v H1) as E1. rewrite (step_tells [] l k' v' H2) in E1. cbn in E1.
    injection E1 as -> ->. now split.
  Qed.

  Notation last_tells := (last_tells uspace).

  Lemma fold_stats ls : forall data, 
    (forall k s, gd_get streq (fold_left stat_step ls data) k = Some s <->
      (exists v, s = SText v /\ last_tells ls k v) \/
      (gd_get streq data k = Some s /\ forall l v, In l ls -> ~ tells l k v)).
  Proof.
    induction ls as [|l ls IH]; intros data k s; cbn [fold_left].
    - split; [intros G; right; split; [exact G|intros ? ? []]|]. intros [(v & _ & (pre & l & post & E & _))|[G _]]; [now destruct pre|exact G].
    - rewrite IH. destruct (tells_dec l) as [(k0 & v0 & T)|N].
      + rewrite (step_tells _ _ _ _ T), (get_set streq streq_spec). split.
        * intros [(v & -> & (pre & l1 & post & -> & T1 & P))|[G P]].
          -- left. exists v. split; [reflexivity|]. exists (l :: pre), l1, post. now repeat split.
          -- destruct (streq k0 k) eqn:E.
             ++ apply streq_spec in E as ->. injection G as <-. left. exists v0. split; [reflexivity|].
                exists [], l, ls. repeat split; [exact T|]. intros l' v' I. now apply P.
             ++ right. split; [exact G|]. intros l' v' [<-|I] T'; [|now apply (P l' v')].
                destruct (tells_fun _ _ _ _ _ T T') as [-> _]. now rewrite same_key in E.
        * intros [(v & -> & (pre & l1 & post & E & T1 & P))|[G P]].
          -- destruct pre as [|x pre]; injection E as -> E.
             ++ subst ls. destruct (tells_fun _ _ _ _ _ T T1) as [-> ->]. right. rewrite same_key. split; [reflexivity|exact P].
             ++ left. exists v. split; [reflexivity|]. exists pre, l1, post. now repeat split.
          -- right. destruct (streq k0 k) eqn:E.
             ++ apply streq_spec in E as ->. destruct (P l v0 (or_introl eq_refl) T).
             ++ split; [exact G|]. intros l' v' I. apply P. now right.
      + rewrite (step_silent _ _ N). split.
        * intros [(v & -> & (pre & l1 & post & -> & T1 & P))|[G P]].
          -- left. exists v. split; [reflexivity|]. exists (l :: pre), l1, post. now repeat split.
          -- right. split; [exact G|]. intros l' v' [<-|I] T'; [now apply (N k v')|now apply (P l' v')].
        * intros [(v & -> & (pre & l1 & post & E & T1 & P))|[G P]].
          -- destruct pre as [|x pre]; injection E as -> E; [now destruct (N k v)|].
             left. exists v. split; [reflexivity|]. exists pre, l1, post. now repeat split.
          -- right. split; [exact G|]. intros l' v' I. apply P. now right.
  Qed.

  Lemma final_skipn {A} n (l m : list A) : final n l m -> skipn (length l - n) l = m.
  Proof.
    intros (pre & -> & [E|[-> L]]); rewrite app_length.
    - replace (length pre + length m - n)%nat with (length pre) by lia. rewrite skipn_app, skipn_all.
      now rewrite Nat.sub_diag.
    - cbn [length app]. now replace (0 + length m - n)%nat with 0%nat by lia.
  Qed.

  Variable fs : filesys.
  Variable f : pystr.

  Lemma read_log lines : gd_get streq fs (lit "logs/" ++ f) = Some (concat lines) -> Forall is_line lines ->
    open_read fs (lit "logs/" ++ f) = Ok lines.
  Proof. intros G L. unfold open_read. rewrite G. now rewrite lines_concat. Qed.

  Lemma stats_eq (lines m : list pystr) l : gd_get streq fs (lit "logs/" ++ f) = Some (concat lines) -> Forall is_line lines ->
    final 7 lines (m ++ [l]) -> contains (lit "Starting") l = false -> contains (lit "killed") l = false ->
    pull_stats_from_file uspace fs f = Ok (fold_left stat_step (m ++ [l]) []).
  Proof.
    intros G L Fi N1 N2. unfold pull_stats_from_file. rewrite (read_log lines G L). cbn [bind].
    assert (E : skipn (length lines - 7) lines = m ++ [l]) by (now apply final_skipn). rewrite E, rev_app_distr. cbn [rev app].
    now rewrite N1, N2.
  Qed.
  Theorem stats_ (lines m : list pystr) l : gd_get streq fs (lit "logs/" ++ f) = Some (concat lines) -> Forall is_line lines ->
    final 7 lines (m ++ [l]) -> contains (lit "Starting") l = false -> contains (lit "killed") l = false ->
    exists d, pull_stats_from_file uspace fs f = Ok d /\
      forall k s, gd_get streq d k = Some s <-> exists v, s = SText v /\ last_tells (m ++ [l]) k v.
  Proof.
    intros G L Fi N1 N2. eexists. split; [now apply (stats_eq lines m l)|].
    intros k s. rewrite fold_stats. split; [|now left].
    intros [H|[H _]]; [exact H|discriminate].
  Qed.
  Theorem flaked_ (lines : list pystr) l : gd_get streq fs (lit "logs/" ++ f) = Some (concat (lines ++ [l])) -> Forall is_line (lines ++ [l]) ->
    contains (lit "Starting") l = true -> pull_stats_from_file uspace fs f = Ok [(lit "flaked", STrue)].
  Proof.
    intros G L N1. unfold pull_stats_from_file. rewrite (read_log _ G L). cbn [bind].
    assert (E : exists m, skipn (length (lines ++ [l]) - 7) (lines ++ [l]) = m ++ [l]).
    { rewrite skipn_app. eexists. rewrite app_length. cbn [length]. replace (length lines + 1 - 7 - length lines)%nat with 0%nat by lia. reflexivity. }
    destruct E as (m & ->). rewrite rev_app_distr. cbn [rev app]. now rewrite N1.
  Qed.
  Theorem killed_ (lines : list pystr) l b v : gd_get streq fs (lit "logs/" ++ f) = Some (concat (lines ++ [l])) -> Forall is_line (lines ++ [l]) ->
    contains (lit "Starting") l = false -> contains (lit "killed") l = true -> after_colon l b -> trims uspace b v ->
    pull_stats_from_file uspace fs f = Ok [(lit "killed", SText v)].
  Proof.
    intros G L N1 N2 A T. unfold pull_stats_from_file. rewrite (read_log _ G L). cbn [bind].
    assert (E : exists m, skipn (length (lines ++ [l]) - 7) (lines ++ [l]) = m ++ [l]).
    { rewrite skipn_app. eexists. rewrite app_length. cbn [length]. replace (length lines + 1 - 7 - length lines)%nat with 0%nat by lia. reflexivity. }
    destruct E as (m & ->). rewrite rev_app_distr. cbn [rev app]. rewrite N1, N2. f_equal. f_equal. f_equal. f_equal.
    apply trims_iff in T. rewrite <- T. f_equal. unfold colon. destruct A as [Nb [->|(a & ->)]].
    - now rewrite split_none.
    - rewrite split_app, (split_none 58 b Nb). apply last_last.
  Qed.
  Theorem no_lines_ : (gd_get streq fs (lit "logs/" ++ f) = Some [] -> pull_stats_from_file uspace fs f = Err IndexError) /\
    (gd_get streq fs (lit "logs/" ++ f) = None -> pull_stats_from_file uspace fs f = Err OSError).
  Proof. unfold pull_stats_from_file, open_read. split; intros ->; reflexivity. Qed.
End stats.

(** ** A finished run *)
Section finished.
  Variable uspace : Z -> bool.
  Notation blank := (blank uspace).

  Lemma spaces_blank n : blank (repeat 32 n).
  Proof. intros c I. apply repeat_spec in I as ->. reflexivity. Qed.
  Lemma words_lead g s : blank g -> words uspace (g ++ s) = words uspace s.
  Proof. apply words_blank. Qed.

  Lemma word_then w c s : wordy uspace w -> space uspace c = true -> words uspace (w ++ c :: s) = w :: words uspace (c :: s).
  Proof.
    intros W C. apply reads_iff. apply (reads_more uspace [] w c s (words uspace (c :: s))); [intros ? []|exact W|exact C|].
    now apply reads_iff.
  Qed.

  Lemma line_tells (name value v : pystr) : trims uspace name name -> ~ In 58 name -> ~ In 58 value ->
    (exists ws, words uspace (value ++ [10]) = v :: ws) -> tells uspace (z_line (name ++ [58]) value) name v.
  Proof.
    intros T Nn Nv (ws & W). exists (repeat 32 4 ++ name), (repeat 32 (15 - length (name ++ [58])) ++ [32] ++ value ++ [10]), [], ws.
    split; [|split; [|split; [|split; [|split]]]].
    - unfold z_line, pad, sp, nl. rewrite app_nil_r, <- !app_assoc. reflexivity.
    - intros I. apply in_app_or in I as [I|I]; [apply repeat_spec in I; discriminate|tauto].
    - intros I. apply in_app_or in I as [I|I]; [apply repeat_spec in I; discriminate|].
      apply in_app_or in I as [[I|[]]|I]; [discriminate|]. apply in_app_or in I as [I|[I|[]]]; [tauto|discriminate].
    - now left.
    - replace (repeat 32 4 ++ name) with (repeat 32 4 ++ name ++ []) by (now rewrite app_nil_r).
      apply trims_pad; [apply spaces_blank|intros ? []|exact T].
    - apply reads_iff. rewrite words_lead by apply spaces_blank. now rewrite (words_lead [32]) by apply (spaces_blank 1).
  Qed.
  Lemma wordy_end w c : wordy uspace w -> space uspace c = false -> wordy uspace (w ++ [c]).
  Proof. intros [N A] C. split; [now destruct w|]. intros d I. apply in_app_or in I as [I|[<-|[]]]; [now apply A|exact C]. Qed.
  Lemma number_flat s w : number uspace s w -> ~ In 58 s /\ one_line s.
  Proof.
    intros (n & -> & [_ W] & N). split; [|split]; intros I; apply in_app_or in I as [I|I]; try (apply repeat_spec in I; discriminate); try tauto;
      apply W in I; discriminate.
  Qed.
  Lemma wordy_one_line w : wordy uspace w -> one_line w.
  Proof. intros [_ W]. split; intros I; apply W in I; discriminate. Qed.
  Lemma z_is_line label value : one_line label -> one_line value -> is_line (z_line label value).
  Proof.
    intros [A1 A2] [B1 B2]. unfold z_line, pad, sp, nl. exists (repeat 32 4 ++ (label ++ repeat 32 (15 - length label)) ++ [32] ++ value).
    split; [now rewrite <- !app_assoc|].
    split; intros I; repeat (apply in_app_or in I as [I|I]; try (apply repeat_spec in I; discriminate); try tauto);
      destruct I as [I|[]]; discriminate.
  Qed.
  Lemma trimmed name : (match name with [] => True | c :: _ => space uspace c = false /\ space uspace (last name 0) = false end) -> trims uspace name name.
  Proof. intros H. split; [|exact H]. exists [], []. rewrite app_nil_r. repeat split; intros ? []. Qed.

  Lemma first_char c (k' : pystr) key k : space uspace c = false -> key = c :: k' -> trims uspace key k -> exists k'', k = c :: k''.
  Proof.
    intros C -> [(g & h & Bg & Bh & E) M]. destruct g as [|x g].
    - destruct k as [|y k]; [|injection E as <- _; now exists k].
      cbn in E. subst h. specialize (Bh c (or_introl eq_refl)). congruence.
    - injection E as -> _. specialize (Bg x (or_introl eq_refl)). congruence.
  Qed.

  (** the last line adds at most one key, whose name starts with "C" *)
  Lemma last_line data (code date : pystr) k : (forall k', k <> 67 :: k') -> ~ In 58 code ->
    gd_get streq (stat_step uspace data (lit "Completed run with exit code " ++ code ++ lit " at: " ++ date ++ [10])) k = gd_get streq data k.
  Proof.
    intros N Nc. set (l := lit "Completed run with exit code " ++ code ++ lit " at: " ++ date ++ [10]).
    destruct (tells_dec uspace l) as [(k0 & v0 & T)|S]; [|now rewrite step_silent].
    rewrite (step_tells _ _ _ _ _ T), (get_set streq streq_spec).
    destruct (streq k0 k) eqn:E; [|reflexivity]. apply streq_spec in E as ->. exfalso.
    destruct T as (key & r & tail & ws & El & Nk & _ & _ & Tr & _).
    assert (exists key', key = 67 :: key') as (key' & Ek).
    { destruct key as [|c key]; [discriminate El|]. injection El as <- _. now exists key. }
    destruct (first_char 67 key' key k) as (k'' & ->); [reflexivity|exact Ek|exact Tr|]. now apply (N k'').
  Qed.

  Variable fs : filesys.
  Variable f : pystr.

  Lemma number_words s w t c : number uspace s w -> space uspace c = true -> exists ws, words uspace ((s ++ c :: t) ++ [10]) = w :: ws.
  Proof.
    intros (n & -> & W & _) C. rewrite <- !app_assoc. rewrite words_lead by apply spaces_blank. cbn [app].
    rewrite word_then by assumption. eauto.
  Qed.
  Lemma number_alone s w : number uspace s w -> exists ws, words uspace (s ++ [10]) = w :: ws.
  Proof. intros (n & -> & W & _). rewrite <- app_assoc. rewrite words_lead by apply spaces_blank. rewrite word_then by (assumption || reflexivity). eauto. Qed.
  Lemma number_unit s w c : number uspace s w -> space uspace c = false -> exists ws, words uspace ((s ++ [c]) ++ [10]) = (w ++ [c]) :: ws.
  Proof.
    intros (n & -> & W & _) C. rewrite <- !app_assoc. rewrite words_lead by apply spaces_blank. rewrite app_assoc.
    rewrite word_then by (now apply wordy_end || reflexivity). eauto.
  Qed.

  Lemma lit_trimmed (name : pystr) : name <> [] -> forallb (fun c => negb (c =? 58)) name = true ->
    (hd 0 name <? 128) && (last name 0 <? 128) && negb (is_space (hd 0 name)) && negb (is_space (last name 0)) = true ->
    trims uspace name name /\ ~ In 58 name.
  Proof.
    intros N F C. apply andb_prop in C as [C C4]. apply andb_prop in C as [C C3]. apply andb_prop in C as [C1 C2].
    apply negb_true_iff in C3, C4. split.
    - apply trimmed. destruct name as [|c n]; [easy|]. unfold space. cbn [hd] in *. rewrite C1, C2. now split.
    - rewrite forallb_forall in F. intros I. now apply F in I.
  Qed.
  Lemma tells_line (name value v : pystr) : name <> [] -> forallb (fun c => negb (c =? 58)) name = true ->
    (hd 0 name <? 128) && (last name 0 <? 128) && negb (is_space (hd 0 name)) && negb (is_space (last name 0)) = true ->
    ~ In 58 value -> (exists ws, words uspace (value ++ [10]) = v :: ws) -> tells uspace (z_line (name ++ [58]) value) name v.
  Proof. intros N F C Nv W. destruct (lit_trimmed name N F C). now apply line_tells. Qed.

  Lemma printed_steps g nodes ls : printed uspace g nodes ls -> (match nodes with Some n => wordy uspace n /\ ~ In 58 n | None => True end) ->
    Forall is_line ls /\ exists l1 rest, ls = l1 :: rest /\ tells uspace l1 (lit "Ratio") (g_ratio g ++ lit "%") /\
    (length rest = match nodes with Some _ => 6 | None => 5 end)%nat /\
    forall data, fold_left (stat_step uspace) rest data =
      gd_set streq (match nodes with Some n => fun d => gd_set streq d (lit "# of Nodes") (SText n) | None => fun d => d end
        (gd_set streq (gd_set streq (gd_set streq (gd_set streq data (lit "Size") (SText (g_size g)))
          (lit "Bits per Byte") (SText (g_bits g))) (lit "Time") (SText (g_time g ++ lit "s")))
          (lit "KB/s") (SText (g_speed g)))) (lit "Memory Used") (SText (g_memory g)).
  Proof.
    intros (ratio & bits & time & speed & memory & N1 & W2 & N2 & N3 & N4 & N5 & N6 & ->) Nn. unfold z_stats.
    destruct (number_flat _ _ N1) as [P1 Q1]. destruct (number_flat _ _ N3) as [P3 Q3]. destruct (number_flat _ _ N4) as [P4 Q4].
    destruct (number_flat _ _ N5) as [P5 Q5]. destruct (number_flat _ _ N6) as [P6 Q6]. pose proof (wordy_one_line _ W2) as Q2.
    assert (OL : forall s : pystr, forallb (fun c => negb (c =? 10) && negb (c =? 13)) s = true -> one_line s).
    { intros s H. rewrite forallb_forall in H. split; intros I; apply H in I; discriminate. }
    assert (OA : forall s t : pystr, one_line s -> one_line t -> one_line (s ++ t)).
    { intros s t [A1 A2] [B1 B2]. split; intros I; apply in_app_or in I; tauto. }
    assert (CA : forall s t : pystr, ~ In 58 s -> ~ In 58 t -> ~ In 58 (s ++ t)).
    { intros s t A B I. apply in_app_or in I. tauto. }
    assert (CL : forall s : pystr, forallb (fun c => negb (c =? 58)) s = true -> ~ In 58 s).
    { intros s H I. rewrite forallb_forall in H. apply H in I. discriminate. }
    assert (NN : match nodes with Some n => one_line n | None => True end) by (destruct nodes; [now apply wordy_one_line|exact I]).
    split.
    { apply Forall_app. split; [|apply Forall_app; split].
      - repeat (apply Forall_cons; [apply z_is_line; [now apply OL|]; repeat apply OA; try assumption; now apply OL|]). apply Forall_nil.
      - destruct nodes; [|constructor]. constructor; [|constructor]. apply z_is_line; [now apply OL|assumption].
      - constructor; [|constructor]. apply z_is_line; [now apply OL|]. apply OA; [assumption|now apply OL]. }
    eexists _, _. split; [reflexivity|]. split; [|split].
    - apply (tells_line (lit "Ratio")); [discriminate|reflexivity|reflexivity| |].
      + apply CA; [exact P1|now apply CL].
      + now apply number_unit.
    - now destruct nodes.
    - intros data. cbn [fold_left app].
      assert (M2 : forall d, stat_step uspace d (z_line (lit "Size:") (g_size g ++ lit " bytes")) = gd_set streq d (lit "Size") (SText (g_size g))).
      { intros d. apply step_tells. apply (tells_line (lit "Size")); [discriminate|reflexivity|reflexivity|apply CA; [exact N2|now apply CL]|change (lit " bytes") with (32 :: lit "bytes"); rewrite <- app_assoc; cbn [app]; rewrite word_then by (assumption || reflexivity); eauto]. }
      assert (M3 : forall d, stat_step uspace d (z_line (lit "Bits per Byte:") (bits)) = gd_set streq d (lit "Bits per Byte") (SText (g_bits g))).
      { intros d. apply step_tells. apply (tells_line (lit "Bits per Byte")); [discriminate|reflexivity|reflexivity|exact P3|now apply number_alone]. }
      assert (M4 : forall d, stat_step uspace d (z_line (lit "Time:") (time ++ lit "s")) = gd_set streq d (lit "Time") (SText (g_time g ++ lit "s"))).
      { intros d. apply step_tells. apply (tells_line (lit "Time")); [discriminate|reflexivity|reflexivity|apply CA; [exact P4|now apply CL]|now apply number_unit]. }
      assert (M5 : forall d, stat_step uspace d (z_line (lit "KB/s:") (speed)) = gd_set streq d (lit "KB/s") (SText (g_speed g))).
      { intros d. apply step_tells. apply (tells_line (lit "KB/s")); [discriminate|reflexivity|reflexivity|exact P5|now apply number_alone]. }
      assert (M : forall d, stat_step uspace d (z_line (lit "Memory Used:") (memory ++ lit " MB")) = gd_set streq d (lit "Memory Used") (SText (g_memory g))).
      { intros d. apply step_tells. apply (tells_line (lit "Memory Used")); [discriminate|reflexivity|reflexivity|apply CA; [exact P6|now apply CL]|now apply number_words]. }
      destruct nodes as [n|]; cbn [fold_left app]; rewrite M, M2, M3, M4, M5; [|reflexivity].
      rewrite (step_tells uspace _ _ (lit "# of Nodes") n); [reflexivity|].
      apply (tells_line (lit "# of Nodes")); [discriminate|reflexivity|reflexivity|apply Nn|].
      rewrite word_then by (apply Nn || reflexivity). eauto.
  Qed.

  Theorem finished_ g text : finished uspace g None text -> gd_get streq fs (lit "logs/" ++ f) = Some text ->
    exists d, pull_stats_from_file uspace fs f = Ok d /\ gd_get streq d (lit "Ratio") = Some (SText (g_ratio g ++ lit "%")) /\ shown g d /\
      forall k, In k [lit "filename"; lit "protocol"; lit "model"; lit "depth"] -> gd_get streq d k = None.
  Proof.
    intros (before & ls & code & date & l & -> & El & Lb & P & Od & Oc & Nc & C1 & C2) G.
    destruct (printed_steps g None ls P I) as (Ll & l1 & rest & -> & T1 & Len & Fo).
    assert (Lx : is_line l).
    { subst l. destruct Od, Oc. exists (lit "Completed run with exit code " ++ code ++ lit " at: " ++ date). split; [now rewrite <- !app_assoc|].
      split; intros I; repeat (apply in_app_or in I as [I|I]; try tauto; try (now apply (lit_flat _ eq_refl) in I));
        cbn in I; decompose [or] I; discriminate || tauto. }
    eexists. split; [apply (stats_eq uspace fs f (before ++ (l1 :: rest) ++ [l]) (l1 :: rest) l G)|].
    - apply Forall_app. split; [exact Lb|]. apply Forall_app. split; [exact Ll|]. constructor; [exact Lx|constructor].
    - exists before. split; [reflexivity|]. left. rewrite app_length. cbn [length]. rewrite Len. reflexivity.
    - exact C1.
    - exact C2.
    - rewrite fold_left_app. cbn [fold_left]. rewrite (step_tells uspace _ _ _ _ T1). rewrite Fo. subst l.
      split; [|split; [|]].
      + rewrite last_line by (discriminate || exact Nc). reflexivity.
      + unfold shown. rewrite !last_line by (discriminate || exact Nc). repeat split.
      + intros k [<-|[<-|[<-|[<-|[]]]]]; (rewrite last_line by (discriminate || exact Nc)); reflexivity.
  Qed.

  (** With a line for the number of nodes the ratio is not among the last seven lines. *)
  Theorem ratio_lost_ g n text : wordy uspace n -> ~ In 58 n -> finished uspace g (Some n) text -> gd_get streq fs (lit "logs/" ++ f) = Some text ->
    exists d, pull_stats_from_file uspace fs f = Ok d /\ gd_get streq d (lit "Ratio") = None /\ shown g d /\
      gd_get streq d (lit "# of Nodes") = Some (SText n).
  Proof.
    intros Wn Nn (before & ls & code & date & l & -> & El & Lb & P & Od & Oc & Nc & C1 & C2) G.
    destruct (printed_steps g (Some n) ls P (conj Wn Nn)) as (Ll & l1 & rest & -> & T1 & Len & Fo).
    assert (Lx : is_line l).
    { subst l. destruct Od, Oc. exists (lit "Completed run with exit code " ++ code ++ lit " at: " ++ date). split; [now rewrite <- !app_assoc|].
      split; intros I; repeat (apply in_app_or in I as [I|I]; try tauto; try (now apply (lit_flat _ eq_refl) in I));
        cbn in I; decompose [or] I; discriminate || tauto. }
    eexists. split; [apply (stats_eq uspace fs f (before ++ (l1 :: rest) ++ [l]) rest l G)|].
    - apply Forall_app. split; [exact Lb|]. apply Forall_app. split; [exact Ll|]. constructor; [exact Lx|constructor].
    - exists (before ++ [l1]). split; [now rewrite <- app_assoc|]. left. rewrite app_length. rewrite Len. reflexivity.
    - exact C1.
    - exact C2.
    - rewrite fold_left_app. cbn [fold_left]. rewrite Fo. subst l.
      split; [|split; [|]].
      + rewrite last_line by (discriminate || exact Nc). reflexivity.
      + unfold shown. rewrite !last_line by (discriminate || exact Nc). repeat split.
      + rewrite last_line by (discriminate || exact Nc). reflexivity.
  Qed.
End finished.

(** ** The table of all logs *)
Lemma stat_step_nodup uspace d l : NoDup (map fst d) -> NoDup (map fst (stat_step uspace d l)).
Proof.
  intros N. unfold stat_step. destruct (split colon l) as [|k [|r t]]; try exact N. destruct (words uspace r); [exact N|].
  now apply (set_nodup streq streq_spec).
Qed.
Lemma stats_nodup uspace fs f d : pull_stats_from_file uspace fs f = Ok d -> NoDup (map fst d).
Proof.
  unfold pull_stats_from_file. destruct (open_read fs (lit "logs/" ++ f)) as [ls|e]; cbn [bind]; [|discriminate].
  set (st := skipn (length ls - 7) ls). destruct (rev st) as [|l r]; [discriminate|].
  destruct (contains (lit "Starting") l); [intros [= <-]; repeat constructor; intros []|].
  destruct (contains (lit "killed") l); [intros [= <-]; repeat constructor; intros []|]. intros [= <-].
  assert (K : forall l d, NoDup (map fst d) -> NoDup (map fst (fold_left (stat_step uspace) l d))).
  { induction l0 as [|x l0 IH]; intros d N; [exact N|]. cbn [fold_left]. apply IH. now apply stat_step_nodup. }
  apply K. constructor.
Qed.
Lemma update_get (st : list (pystr * stat)) : NoDup (map fst st) -> forall (d : list (pystr * stat)) k,
  gd_get streq (fold_left (fun d kv => gd_set streq d (fst kv) (snd kv)) st d) k =
  match gd_get streq st k with Some v => Some v | None => gd_get streq d k end.
Proof.
  induction st as [|[x v] st IH]; intros N d k; [reflexivity|]. cbn [map fst] in N. inversion N as [|? ? Nx N']; subst.
  cbn [fold_left fst snd gd_get]. rewrite IH by exact N'. rewrite (get_set streq streq_spec).
  destruct (streq x k) eqn:E; [|reflexivity]. apply streq_spec in E as ->.
  destruct (gd_get streq st k) eqn:G; [|reflexivity]. apply (get_in streq streq_spec) in G. destruct Nx. now apply (in_map fst) in G.
Qed.

Section table.
  Variable uspace : Z -> bool.
  Variable fs : filesys.
  Notation row_of := (row_of uspace fs).

  Lemma row_name_eq f : hd [] (split dot f) = row_name f.
  Proof.
    unfold dot. induction f as [|c f IH]; [reflexivity|]. cbn [split row_name]. destruct (c =? 46); [reflexivity|].
    pose proof (split_ne 46 f). destruct (split 46 f); [easy|]. cbn [hd] in *. now rewrite IH.
  Qed.

  Lemma all_logs_ok : forall listing data, Forall (fun f => is_log f -> readable uspace fs f) listing ->
    exists table, all_logs uspace fs listing data = Ok table /\
      (forall pre f post, listing = pre ++ f :: post -> is_log f -> (forall f', In f' post -> is_log f' -> row_name f' <> row_name f) ->
        exists r, gd_get streq table (row_name f) = Some r /\ row_of f r) /\
      (forall name, (forall f, In f listing -> is_log f -> row_name f <> name) -> gd_get streq table name = gd_get streq data name).
  Proof.
    induction listing as [|f l IH]; intros data H.
    - exists data. split; [reflexivity|]. split; [intros [|? ?] ? ? E; discriminate E|reflexivity].
    - inversion H as [|? ? Hf H']; subst. cbn [all_logs]. destruct (contains (lit ".log") f) eqn:C.
      + destruct (Hf C) as (ps & st & Ep & Es). rewrite Ep, Es. cbn [bind]. rewrite row_name_eq.
        set (r := fold_left (fun d kv => gd_set streq d (fst kv) (snd kv)) st ps).
        destruct (IH (gd_set streq data (row_name f) r) H') as (table & E & T1 & T2). exists table. split; [exact E|]. split.
        * intros pre g post Eq L Po. destruct pre as [|x pre]; injection Eq as -> Eq.
          -- subst l. rewrite T2 by exact Po. exists r. split.
             ++ rewrite (get_set streq streq_spec). now rewrite same_key.
             ++ exists ps, st. repeat split; try assumption. intros k. apply update_get. exact (stats_nodup _ _ _ _ Es).
          -- now apply (T1 pre g post).
        * intros name N. rewrite T2 by (intros g I; apply N; now right). rewrite (get_set streq streq_spec).
          destruct (streq (row_name f) name) eqn:S; [|reflexivity]. apply streq_spec in S. now destruct (N f (or_introl eq_refl) C).
      + destruct (IH data H') as (table & E & T1 & T2). exists table. split; [exact E|]. split.
        * intros pre g post Eq L Po. destruct pre as [|x pre]; injection Eq as -> Eq; [unfold is_log in L; congruence|].
          now apply (T1 pre g post).
        * intros name N. apply T2. intros g I. apply N. now right.
  Qed.

  Theorem table_ listing : Forall (fun f => is_log f -> readable uspace fs f) listing ->
    exists table, get_all_logs uspace fs listing = Ok table /\
      (forall pre f post, listing = pre ++ f :: post -> is_log f -> (forall f', In f' post -> is_log f' -> row_name f' <> row_name f) ->
        exists r, gd_get streq table (row_name f) = Some r /\ row_of f r) /\
      (forall name r, gd_get streq table name = Some r -> exists f, In f listing /\ is_log f /\ row_name f = name).
  Proof.
    intros H. destruct (all_logs_ok listing [] H) as (table & E & T1 & T2). exists table. split; [exact E|]. split; [exact T1|].
    intros name r G. set (here := existsb (fun f => contains (lit ".log") f && streq (row_name f) name) listing).
    destruct here eqn:X; unfold here in X.
    - apply existsb_exists in X as (f & I & X). apply andb_prop in X as [X1 X2]. apply streq_spec in X2. exists f. now repeat split.
    - rewrite T2 in G; [discriminate|]. intros f I L E2. rewrite <- not_true_iff_false in X. apply X. apply existsb_exists.
      exists f. split; [exact I|]. unfold is_log in L. rewrite L, E2. apply same_key.
  Qed.

  (** One log that cannot be read spoils the table. *)
  Theorem table_fails_ pre f post e : Forall (fun f => is_log f -> readable uspace fs f) pre -> is_log f ->
    pull_params_from_name f = Err e \/ (exists ps, pull_params_from_name f = Ok ps) /\ pull_stats_from_file uspace fs f = Err e ->
    get_all_logs uspace fs (pre ++ f :: post) = Err e.
  Proof.
    unfold get_all_logs. generalize (@nil (pystr * list (pystr * stat))). intros data H L B. revert data.
    induction H as [|g pre Hg H IH]; intros data; cbn [app all_logs].
    - unfold is_log in L. rewrite L. destruct B as [->|[(ps & ->) E2]]; [reflexivity|]. cbn [bind]. now rewrite E2.
    - destruct (contains (lit ".log") g) eqn:C; [|apply IH]. destruct (Hg C) as (ps & st & -> & ->). cbn [bind]. apply IH.
  Qed.

  Lemma log_is_log j id : is_log (log_name j id).
  Proof. apply contains_iff. exists (job_name j ++ [46] ++ id), []. unfold log_name. now rewrite <- !app_assoc, app_nil_r. Qed.
  Lemma row_name_cut (a b : pystr) : ~ In 46 a -> row_name (a ++ 46 :: b) = a.
  Proof.
    induction a as [|c a IH]; intros N; [reflexivity|]. cbn [app row_name]. destruct (Z.eqb_spec c 46) as [->|_]; [destruct N; now left|].
    f_equal. apply IH. intros I. apply N. now right.
  Qed.
  Lemma log_row j id : plain_job j -> ~ In 46 (j_protocol j) -> ~ In 46 (j_model j) -> row_name (log_name j id) = job_name j.
  Proof.
    intros P A B. apply row_name_cut. unfold job_name. intros I. apply in_app_or in I as [I|[I|I]]; [tauto|discriminate|].
    apply in_app_or in I as [I|[I|I]]; [tauto|discriminate|]. revert I. apply digits_dot, P.
  Qed.

  Theorem results_ (logs : list (job * pystr * figures)) : NoDup (map (fun x => job_name (fst (fst x))) logs) ->
    Forall (fun x => let '(j, id, g) := x in plain_job j /\ ~ In 46 (j_protocol j) /\ ~ In 46 (j_model j) /\
      exists text, gd_get streq fs (lit "logs/" ++ log_name j id) = Some text /\ finished uspace g None text) logs ->
    exists table, get_all_logs uspace fs (map (fun x => log_name (fst (fst x)) (snd (fst x))) logs) = Ok table /\
      forall j id g, In (j, id, g) logs -> exists r, gd_get streq table (job_name j) = Some r /\
        gd_get streq r (lit "protocol") = Some (SText (j_protocol j)) /\
        gd_get streq r (lit "model") = Some (SText (j_model j)) /\
        gd_get streq r (lit "depth") = Some (SText (str_of_int (j_depth j))) /\
        gd_get streq r (lit "Ratio") = Some (SText (g_ratio g ++ lit "%")) /\ shown g r.
  Proof.
    intros N F. rewrite Forall_forall in F. set (listing := map _ logs).
    assert (R : Forall (fun f => is_log f -> readable uspace fs f) listing).
    { apply Forall_forall. intros f I _. apply in_map_iff in I as ([[j id] g] & <- & I). apply F in I as (P & _ & _ & text & G & Fi).
      cbn [fst snd]. destruct (params_ j (id ++ lit ".log") P) as (ps & Ep & _). destruct (finished_ uspace fs _ g text Fi G) as (st & Es & _).
      exists ps, st. split; [exact Ep|exact Es]. }
    destruct (table_ listing R) as (table & E & T & _). exists table. split; [exact E|]. intros j id g I.
    pose proof I as I0. apply in_split in I as (pre & post & ->). destruct (F _ I0) as (P & A & B & text & G & Fi).
    destruct (T (map (fun x => log_name (fst (fst x)) (snd (fst x))) pre) (log_name j id) (map (fun x => log_name (fst (fst x)) (snd (fst x))) post)) as (r & Gr & (ps & st & Ep & Es & U)).
    - unfold listing. now rewrite map_app.
    - apply log_is_log.
    - intros f' I' _ E'. apply in_map_iff in I' as ([[j' id'] g'] & <- & I'). cbn [fst snd] in E'.
      destruct (F (j', id', g')) as (P' & A' & B' & _); [apply in_or_app; right; now right|].
      rewrite (log_row j' id' P' A' B'), (log_row j id P A B) in E'. rewrite map_app in N. apply NoDup_remove_2 in N. apply N.
      apply in_or_app. right. cbn [fst]. rewrite <- E'. change (job_name j') with ((fun x : job * pystr * figures => job_name (fst (fst x))) (j', id', g')).
      now apply in_map.
    - rewrite (log_row j id P A B) in Gr. exists r. split; [exact Gr|].
      destruct (params_ j (id ++ lit ".log") P) as (ps' & Ep' & _ & _ & Q2 & Q3 & Q4).
      change (job_name j ++ 46 :: id ++ lit ".log") with (log_name j id) in Ep'. rewrite Ep in Ep'. injection Ep' as <-.
      destruct (finished_ uspace fs _ g text Fi G) as (st' & Es' & S1 & S2 & S3). rewrite Es in Es'. injection Es' as <-.
      rewrite !U. rewrite S1. rewrite !S3 by (cbn; tauto). repeat (split; [assumption||reflexivity|]).
      unfold shown in *. rewrite !U. destruct S2 as (-> & -> & -> & -> & ->). repeat split.
  Qed.
End table.
