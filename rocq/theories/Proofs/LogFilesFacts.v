(** C75: LogWriter and LogReader. *)
From Verif Require Import Model.LogFiles Spec.LogFilesSpec Proofs.StrFacts Proofs.DictFacts Proofs.PathFacts Proofs.LogDataFacts Proofs.LogSave.
Open Scope Z_scope.

Lemma same (s : pystr) : streq s s = true.
Proof. now apply streq_spec. Qed.

Lemma names_set a l : names a l -> set_headers a = l.
Proof. destruct 1; reflexivity. Qed.
Lemma set_names a : names a (set_headers a).
Proof. destruct a; constructor. Qed.

Lemma target_eq filepath base : target filepath base =
  match base with Some (c :: b) => path_join2 (c :: b) filepath | _ => filepath end.
Proof. destruct base as [[|c b]|]; try reflexivity. unfold target, path_join2. now destruct (starts_with slash filepath). Qed.

Lemma split_target d n : d <> [] -> (forall d', d <> d' ++ [47]) -> ~ In 47 n -> path_split (d ++ 47 :: n) = (d, n).
Proof.
  intros Hd Hl Hn. unfold path_split. change (d ++ 47 :: n) with (d ++ slash :: n). rewrite (cut_last_app slash d n Hn).
  destruct (exists_last Hd) as (s & a & E). subst d.
  assert (Ha : a <> 47) by (intros ->; exact (Hl s eq_refl)).
  replace (forallb (Z.eqb slash) ((s ++ [a]) ++ [slash])) with false.
  - f_equal. rewrite <- app_assoc. exact (rstrip_last slash s a Ha).
  - symmetry. rewrite !forallb_app. cbn [forallb]. replace (slash =? a) with false by (symmetry; apply Z.eqb_neq; unfold slash; congruence).
    cbn. now rewrite andb_false_r.
Qed.

Lemma mem_none (fs : filesys) p : gd_get streq fs p = None -> gd_mem streq fs p = false.
Proof. unfold gd_mem. now intros ->. Qed.
Lemma mem_some (fs : filesys) p t : gd_get streq fs p = Some t -> gd_mem streq fs p = true.
Proof. unfold gd_mem. now intros ->. Qed.

Lemma get_same (fs : filesys) p t : gd_get streq (gd_set streq fs p t) p = Some t.
Proof. rewrite (get_set streq streq_spec), same. reflexivity. Qed.
Lemma get_other (fs : filesys) p t q : q <> p -> gd_get streq (gd_set streq fs p t) q = gd_get streq fs q.
Proof.
  intros N. rewrite (get_set streq streq_spec). destruct (streq p q) eqn:E; [|reflexivity].
  apply streq_spec in E. congruence.
Qed.

(** ** Writing *)
Lemma write_open fs w s old : w_fp w = Some true -> gd_get streq fs (w_fullpath w) = Some old ->
  write fs w s = (gd_set streq fs (w_fullpath w) (old ++ s ++ [10]), Ok tt).
Proof. intros F G. unfold write. now rewrite F, G. Qed.

Lemma step_open fs w o old : w_fp w = Some true -> gd_get streq fs (w_fullpath w) = Some old -> fits (length (w_headers w)) o ->
  exists fs', wstep fs w o = (fs', w, Ok tt) /\ gd_get streq fs' (w_fullpath w) = Some (old ++ op_text (w_filepath w) o).
Proof.
  intros F G Ht. destruct o as [s|l|s|n csv|]; cbn [wstep fits op_text] in *; [| | | |easy].
  - rewrite (write_open _ _ _ _ F G). eexists. split; [reflexivity|apply get_same].
  - destruct l as [|x l]; [exists fs; split; [reflexivity|now rewrite app_nil_r]|].
    unfold write_list. rewrite (write_open _ _ _ _ F G). eexists. split; [reflexivity|apply get_same].
  - unfold write_comment. rewrite (write_open _ _ _ _ F G). eexists. split; [reflexivity|]. rewrite get_same.
    rewrite <- (app_assoc (lit "# ")). reflexivity.
  - subst n. unfold write_dataframe. rewrite Nat.eqb_refl, F, G. eexists. split; [reflexivity|]. rewrite get_same.
    now rewrite <- !app_assoc.
Qed.

Lemma run_open w : w_fp w = Some true -> forall ops fs old, gd_get streq fs (w_fullpath w) = Some old ->
  Forall (fits (length (w_headers w))) ops ->
  exists fs', wrun fs w ops = (fs', w, Ok tt) /\
    gd_get streq fs' (w_fullpath w) = Some (old ++ concat (map (op_text (w_filepath w)) ops)).
Proof.
  intros F. induction ops as [|o ops IH]; intros fs old G H; [exists fs; split; [reflexivity|cbn; now rewrite app_nil_r]|].
  inversion H as [|? ? Ho H']; subst. destruct (step_open fs w o old F G Ho) as (fs1 & E1 & G1).
  destruct (IH fs1 _ G1 H') as (fs2 & E2 & G2). exists fs2. cbn [wrun map concat]. rewrite E1. split; [exact E2|].
  now rewrite app_assoc.
Qed.

Lemma writer_opens fs filepath base safe a headers : writable fs (target filepath base) safe -> names a headers ->
  exists fs', log_writer fs filepath base safe a = (fs', Ok (Writer filepath (target filepath base) headers safe (Some true))) /\
    gd_get streq fs' (target filepath base) = Some (first_text filepath headers).
Proof.
  intros [(d & n & E & Hd & Hl & Hn & Hs & Gd) Sf] Na. apply names_set in Na. unfold log_writer. rewrite <- target_eq, Na.
  set (p := target filepath base) in *. assert (Sp : path_split p = (d, n)) by (rewrite E; now apply split_target).
  rewrite Sp. cbn [fst].
  unfold makedirs. destruct d as [|d0 d]; [easy|]. rewrite (mem_none _ _ Gd).
  unfold is_directory. rewrite Sp. cbn [snd]. destruct n as [|n0 n]; [easy|].
  replace (safe && gd_mem streq fs p)%bool with false by (destruct safe; [now rewrite (mem_none _ _ (Sf eq_refl))|reflexivity]).
  set (w := Writer filepath p headers safe (Some true)).
  unfold write_comment. rewrite (write_open _ w _ [] eq_refl) by apply get_same.
  destruct headers as [|h hs].
  - unfold write_list. eexists. split; [reflexivity|]. change (w_fullpath w) with p. rewrite get_same. unfold first_text.
    cbn [app]. rewrite <- (app_assoc (lit "# ")). reflexivity.
  - unfold write_list. erewrite (write_open _ w) by (reflexivity || apply get_same). eexists. split; [reflexivity|].
    change (w_fullpath w) with p. rewrite get_same. unfold first_text, line_of. rewrite <- !app_assoc. reflexivity.
Qed.

(** The text of a log *)
Theorem written fs filepath base safe a headers ops : writable fs (target filepath base) safe -> names a headers ->
  Forall (fits (length headers)) ops ->
  exists fs1 w fs2, log_writer fs filepath base safe a = (fs1, Ok w) /\ wrun fs1 w ops = (fs2, w, Ok tt) /\
    gd_get streq fs2 (target filepath base) = Some (first_text filepath headers ++ concat (map (op_text filepath) ops)).
Proof.
  intros W Na H. destruct (writer_opens fs filepath base safe a headers W Na) as (fs1 & E1 & G1).
  set (w := Writer filepath (target filepath base) headers safe (Some true)) in *.
  destruct (run_open w eq_refl ops fs1 _ G1 H) as (fs2 & E2 & G2). exists fs1, w, fs2. auto.
Qed.

(** ** What is left alone *)
Lemma step_same fs w o : (w_fp w = None \/ w_fp w = Some false) ->
  exists w' r, wstep fs w o = (fs, w', r) /\ w_fullpath w' = w_fullpath w /\ w_fp w' = w_fp w.
Proof.
  intros F. assert (W : forall s, exists r, write fs w s = (fs, r)) by (intros s; unfold write; destruct F as [-> | ->]; eauto).
  assert (K : forall (x : filesys * result unit), (exists r, x = (fs, r)) -> exists w' r,
    (let (fs, r) := x in (fs, w, r)) = (fs, w', r) /\ w_fullpath w' = w_fullpath w /\ w_fp w' = w_fp w).
  { intros x (r & ->). exists w, r. auto. }
  destruct o as [s|l|s|n csv|]; cbn [wstep].
  - apply K, W.
  - apply K. unfold write_list. destruct l; [eauto|apply W].
  - apply K, W.
  - apply K. unfold write_dataframe. destruct (Nat.eqb _ n); [|eauto]. destruct F as [-> | ->]; eauto.
  - exists (close w), (Ok tt). split; [reflexivity|]. unfold close. destruct F as [F|F]; rewrite F; auto.
Qed.

Lemma run_same ops : forall fs w, (w_fp w = None \/ w_fp w = Some false) -> exists w' r, wrun fs w ops = (fs, w', r).
Proof.
  induction ops as [|o ops IH]; intros fs w F; [cbn; eauto|]. cbn [wrun].
  destruct (step_same fs w o F) as (w' & r & -> & _ & F'). destruct r; [|eauto]. apply IH. now rewrite F'.
Qed.

Lemma step_frame fs w o q : q <> w_fullpath w ->
  gd_get streq (fst (fst (wstep fs w o))) q = gd_get streq fs q /\ w_fullpath (snd (fst (wstep fs w o))) = w_fullpath w.
Proof.
  intros N. assert (W : forall s, gd_get streq (fst (write fs w s)) q = gd_get streq fs q).
  { intros s. unfold write. destruct (w_fp w) as [[]|]; try reflexivity. cbn [fst]. now apply get_other. }
  destruct o as [s|l|s|n csv|]; cbn [wstep].
  - specialize (W s). destruct (write fs w s). auto.
  - unfold write_list. destruct l as [|x l]; [auto|]. specialize (W (join [sp] (x :: l))). destruct (write fs w _). auto.
  - unfold write_comment. specialize (W (lit "# " ++ s)). destruct (write fs w _). auto.
  - unfold write_dataframe. destruct (Nat.eqb _ n); [|auto]. destruct (w_fp w) as [[]|]; cbn [fst snd]; auto.
    split; [now apply get_other|reflexivity].
  - unfold close. destruct (w_fp w); auto.
Qed.

Lemma run_frame q : forall ops fs w, q <> w_fullpath w ->
  gd_get streq (fst (fst (wrun fs w ops))) q = gd_get streq fs q.
Proof.
  induction ops as [|o ops IH]; intros fs w N; [reflexivity|]. cbn [wrun].
  destruct (step_frame fs w o q N) as [A B]. destruct (wstep fs w o) as [[fs' w'] r]. cbn [fst snd] in A, B.
  destruct r; [|exact A]. rewrite IH by congruence. exact A.
Qed.

Lemma writer_cases fs filepath base safe a :
  match log_writer fs filepath base safe a with
  | (fs', Err _) => fs' = fs
  | (fs', Ok w) => w_fullpath w = target filepath base /\
      ((safe = true /\ fs' = fs /\ w_fp w = None /\ exists t, gd_get streq fs (target filepath base) = Some t) \/
       (w_fp w = Some true /\ (safe = true -> gd_get streq fs (target filepath base) = None) /\
        forall q, q <> target filepath base -> gd_get streq fs' q = gd_get streq fs q))
  end.
Proof.
  unfold log_writer. rewrite <- target_eq. set (p := target filepath base). destruct (makedirs _ _); [|reflexivity].
  destruct (is_directory p); [reflexivity|].
  destruct (safe && gd_mem streq fs p)%bool eqn:E.
  - apply andb_true_iff in E as [-> E]. split; [reflexivity|]. left. unfold gd_mem in E.
    destruct (gd_get streq fs p) as [t|]; [|discriminate]. eauto.
  - set (hs := set_headers a). set (w := Writer filepath p hs safe (Some true)).
    unfold write_comment. rewrite (write_open _ w _ [] eq_refl) by apply get_same. change (w_fullpath w) with p.
    assert (S : safe = true -> gd_get streq fs p = None).
    { intros ->. unfold gd_mem in E. cbn in E. now destruct (gd_get streq fs p). }
    unfold write_list. destruct hs as [|h hs'] eqn:Eh.
    + split; [reflexivity|]. right. split; [reflexivity|]. split; [exact S|]. intros q N. now rewrite !get_other by exact N.
    + erewrite (write_open _ w) by (reflexivity || apply get_same). change (w_fullpath w) with p.
      split; [reflexivity|]. right. split; [reflexivity|]. split; [exact S|]. intros q N. now rewrite !get_other by exact N.
Qed.

Theorem session_frame fs filepath base safe a ops q : q <> target filepath base ->
  gd_get streq (session fs filepath base safe a ops) q = gd_get streq fs q.
Proof.
  intros N. unfold session. pose proof (writer_cases fs filepath base safe a) as C.
  destruct (log_writer fs filepath base safe a) as [fs' [w|e]]; [|now subst].
  destruct C as [P C]. rewrite run_frame by congruence. destruct C as [(_ & -> & _)|(_ & _ & C)]; [reflexivity|now apply C].
Qed.

Theorem session_safe fs filepath base a ops q t : gd_get streq fs q = Some t ->
  gd_get streq (session fs filepath base true a ops) q = Some t.
Proof.
  intros G. destruct (streq q (target filepath base)) eqn:E.
  - apply streq_spec in E. subst q. unfold session. pose proof (writer_cases fs filepath base true a) as C.
    destruct (log_writer fs filepath base true a) as [fs' [w|e]]; [|now subst].
    destruct C as [P [(_ & -> & F & _)|(_ & C & _)]]; [|specialize (C eq_refl); congruence].
    destruct (run_same ops fs w (or_introl F)) as (w' & r & ->). exact G.
  - rewrite session_frame; [exact G|]. intros ->. now rewrite same in E.
Qed.

(** ** A log only grows *)
Lemma step_grows fs w o old : gd_get streq fs (w_fullpath w) = Some old ->
  (exists more, gd_get streq (fst (fst (wstep fs w o))) (w_fullpath w) = Some (old ++ more)) /\
  w_fullpath (snd (fst (wstep fs w o))) = w_fullpath w.
Proof.
  intros G. assert (W : forall s, exists more, gd_get streq (fst (write fs w s)) (w_fullpath w) = Some (old ++ more)).
  { intros s. unfold write. rewrite G. destruct (w_fp w) as [[]|]; cbn [fst].
    - rewrite get_same. eauto.
    - exists []. now rewrite app_nil_r.
    - exists []. now rewrite app_nil_r. }
  assert (K : exists more, gd_get streq fs (w_fullpath w) = Some (old ++ more)) by (exists []; now rewrite app_nil_r).
  destruct o as [s|l|s|n csv|]; cbn [wstep].
  - specialize (W s). destruct (write fs w s). auto.
  - unfold write_list. destruct l as [|x l]; [auto|]. specialize (W (join [sp] (x :: l))). destruct (write fs w _). auto.
  - unfold write_comment. specialize (W (lit "# " ++ s)). destruct (write fs w _). auto.
  - unfold write_dataframe. destruct (Nat.eqb _ n); [|auto]. destruct (w_fp w) as [[]|]; cbn [fst snd]; auto.
    rewrite G, get_same. eauto.
  - unfold close. destruct (w_fp w); auto.
Qed.

Theorem run_grows : forall ops fs w old, gd_get streq fs (w_fullpath w) = Some old ->
  exists more, gd_get streq (fst (fst (wrun fs w ops))) (w_fullpath w) = Some (old ++ more).
Proof.
  induction ops as [|o ops IH]; intros fs w old G; [exists []; cbn; now rewrite app_nil_r|]. cbn [wrun].
  destruct (step_grows fs w o old G) as [[m A] B]. destruct (wstep fs w o) as [[fs' w'] r]. cbn [fst snd] in A, B.
  destruct r; [|eauto]. rewrite <- B in A |- *. destruct (IH fs' w' _ A) as (m' & M). exists (m ++ m'). now rewrite app_assoc.
Qed.

(** Closed: nothing more is written *)
Theorem closed fs w ops : exists w' r, wrun fs (close w) ops = (fs, w', r).
Proof. apply run_same. unfold close. destruct (w_fp w) eqn:E; [right; reflexivity|left; exact E]. Qed.

Theorem closed_write fs w s : w_fp w <> None -> write fs (close w) s = (fs, Err ValueError).
Proof. unfold close, write. now destruct (w_fp w). Qed.

(** ** Reading *)
Section S.
  Variable uspace : Z -> bool.
  Variable uninumeric : pystr -> bool.
  Notation wordy := (wordy uspace).
  Notation words := (words uspace).
  Notation trims := (trims uspace).
  Notation get_headers := (get_headers uspace uninumeric).
  Notation iterate := (iterate uspace).
  Notation log_data := (log_data uspace uninumeric).

  Definition comment_line (c : pystr) : pystr := [35; 32] ++ c ++ [10].

  Lemma comment_is_line c : one_line c -> is_line (comment_line c).
  Proof.
    intros [A B]. exists ([35; 32] ++ c). split; [unfold comment_line; now rewrite <- app_assoc|].
    split; intros [H|[H|H]]; try discriminate; auto.
  Qed.

  Lemma log_text filepath comments headers rows a ops hs : headers <> [] -> Forall (fun row => row <> []) rows ->
    writes comments headers rows a ops -> names a hs ->
    Forall (fits (length hs)) ops /\
    first_text filepath hs ++ concat (map (op_text filepath) ops) =
      concat (map comment_line (filepath :: comments) ++ line_of headers :: map line_of rows).
  Proof.
    intros Hh Hr W Na.
    assert (R : concat (map (op_text filepath) (map WList rows)) = concat (map line_of rows)).
    { clear - Hr. induction Hr as [|row rows Hn Hr IH]; [reflexivity|]. cbn [map concat]. rewrite IH. f_equal. now destruct row. }
    assert (Hf : forall n, Forall (fits n) (map WList rows)).
    { intros n. apply Forall_forall. intros o H. apply in_map_iff in H as (x & <- & _). exact I. }
    destruct W as [a -> Nh|a Nh].
    - assert (hs = headers) by (apply names_set in Na, Nh; congruence). subst hs. split; [apply Hf|].
      cbn [map app concat]. rewrite R. unfold first_text, comment_line. destruct headers; [easy|]. now rewrite <- !app_assoc.
    - assert (hs = []) by (apply names_set in Na, Nh; congruence). subst hs. split.
      + apply Forall_app. split; [|constructor; [exact I|apply Hf]].
        apply Forall_forall. intros o H. apply in_map_iff in H as (x & <- & _). exact I.
      + rewrite map_app, concat_app. cbn [map concat]. rewrite R.
        assert (Ec : concat (map (op_text filepath) (map WComment comments)) = concat (map comment_line comments)).
        { clear. induction comments as [|c cs IH]; [reflexivity|]. cbn [map concat]. now rewrite IH. }
        rewrite Ec. cbn [map app concat]. rewrite concat_app. cbn [concat]. unfold first_text.
        rewrite app_nil_r. cbn [op_text]. destruct headers; [easy|]. unfold comment_line. now rewrite <- !app_assoc.
  Qed.

  Lemma data_lines filepath comments headers rows : log_data filepath comments headers rows ->
    Forall is_line (map comment_line (filepath :: comments) ++ line_of headers :: map line_of rows).
  Proof.
    intros [Lp Lc _ Lh Lr]. apply Forall_app. split.
    - apply Forall_forall. intros l H. apply in_map_iff in H as (c & <- & H). apply comment_is_line.
      destruct H as [<-|H]; [exact Lp|]. rewrite Forall_forall in Lc. auto.
    - constructor; [exact (join_line uspace headers Lh)|]. apply Forall_forall. intros l H.
      apply in_map_iff in H as (row & <- & H). rewrite Forall_forall in Lr. exact (join_line uspace row (proj2 (Lr _ H))).
  Qed.

  Lemma rows_nonempty filepath comments headers rows : log_data filepath comments headers rows ->
    headers <> [] /\ Forall (fun row : list pystr => row <> []) rows.
  Proof.
    intros [_ _ (c & h & hs & E & _) _ Lr]. split; [now rewrite E|]. revert Lr. apply Forall_impl. intros row [L _] ->.
    rewrite E in L. discriminate.
  Qed.

  (** what the two ways of writing leave in the file *)
  Lemma session_text fs filepath base safe comments headers rows a ops :
    writable fs (target filepath base) safe -> log_data filepath comments headers rows -> writes comments headers rows a ops ->
    exists fs1 w fs2, log_writer fs filepath base safe a = (fs1, Ok w) /\ wrun fs1 w ops = (fs2, w, Ok tt) /\
      gd_get streq fs2 (target filepath base) =
        Some (concat (map comment_line (filepath :: comments) ++ line_of headers :: map line_of rows)).
  Proof.
    intros W D Ws. destruct (rows_nonempty _ _ _ _ D) as [Hh Hr].
    destruct (log_text filepath comments headers rows a ops _ Hh Hr Ws (set_names a)) as [Fi E].
    destruct (written fs filepath base safe a _ ops W (set_names a) Fi) as (fs1 & w & fs2 & A & B & C).
    exists fs1, w, fs2. split; [exact A|]. split; [exact B|]. now rewrite C, E.
  Qed.

  Lemma skip_ok : forall cs ls acc n, match ls with [] => True | l :: _ => is_comment l = false end ->
    reader_skip (map comment_line cs ++ ls) acc n = (ls, acc ++ map (fun c => 32 :: c ++ [10]) cs, (n + length cs)%nat).
  Proof.
    induction cs as [|c cs IH]; intros ls acc n H.
    - cbn [map app length]. rewrite app_nil_r, Nat.add_0_r. destruct ls as [|l ls]; [reflexivity|]. cbn [reader_skip]. now rewrite H.
    - cbn [map app reader_skip length]. change (is_comment (comment_line c)) with true. cbn [skipn]. rewrite IH by exact H.
      rewrite <- app_assoc. cbn [app]. f_equal. lia.
  Qed.

  Lemma line_words ws : Forall wordy ws -> words (line_of ws) = ws.
  Proof. intros H. apply reads_words. exact (reads_join uspace ws H). Qed.

  Lemma iterate_rows cs n (hs : list pystr) : forall rows rest,
    Forall (fun row => length row = length hs /\ Forall wordy row) rows ->
    iterate (length rows) (Reader (map line_of rows ++ rest) cs n (Some (Some hs))) =
      (Reader rest cs n (Some (Some hs)), Ok (map (fun row => combine (map Some hs) row) rows)).
  Proof.
    induction rows as [|row rows IH]; intros rest H; [reflexivity|]. inversion H as [|? ? [L Hw] H']; subst.
    cbn [length LogFiles.iterate map app]. unfold reader_iter. cbn [r_lines readline r_comments r_comment_rows r_file_headers].
    rewrite (line_words row Hw). unfold series. rewrite L, Nat.eqb_refl. cbn [bind]. rewrite (IH rest H'). reflexivity.
  Qed.

  Lemma headers_read filepath comments headers rows : log_data filepath comments headers rows ->
    get_headers (Reader (map comment_line (filepath :: comments) ++ line_of headers :: map line_of rows) [] 0 None) =
      (Reader (map line_of rows) (map (fun c => 32 :: c ++ [10]) (filepath :: comments)) (S (length comments)) (Some (Some headers)),
       Some headers).
  Proof.
    intros [_ _ (c & h & hs & E & N & U) Lh _]. unfold LogFiles.get_headers. cbn [r_lines r_comments r_comment_rows].
    assert (El : exists s, line_of headers = c :: s).
    { rewrite E. unfold line_of. destruct hs; cbn; eauto. }
    destruct El as (s & El). rewrite skip_ok.
    - rewrite El. rewrite U. cbn [readline]. rewrite <- El, (line_words headers Lh). reflexivity.
    - rewrite El. cbn. now apply Z.eqb_neq.
  Qed.

  Theorem round_trip fs filepath base safe comments headers rows a ops :
    writable fs (target filepath base) safe -> log_data filepath comments headers rows -> writes comments headers rows a ops ->
    exists fs1 w fs2, log_writer fs filepath base safe a = (fs1, Ok w) /\ wrun fs1 w ops = (fs2, w, Ok tt) /\
    exists r0 r1 r2, log_reader fs2 filepath base = Ok r0 /\ get_headers r0 = (r1, Some headers) /\
      r_comments r1 = map (fun c => 32 :: c ++ [10]) (filepath :: comments) /\ r_comment_rows r1 = S (length comments) /\
      iterate (length rows) r1 = (r2, Ok (map (fun row => combine (map Some headers) row) rows)) /\
      snd (reader_iter uspace r2) = Err ValueError.
  Proof.
    intros W D Ws. destruct (session_text _ _ _ _ _ _ _ _ _ W D Ws) as (fs1 & w & fs2 & A & B & C).
    exists fs1, w, fs2. split; [exact A|]. split; [exact B|].
    do 3 eexists. split; [|split; [apply (headers_read _ _ _ _ D)|split; [reflexivity|split; [reflexivity|]]]].
    - unfold log_reader. replace (match base with Some b => path_join2 b filepath | None => filepath end) with (target filepath base) by (now destruct base).
      unfold open_read. rewrite C. cbn [bind]. now rewrite (lines_concat _ (data_lines _ _ _ _ D)).
    - destruct D as [_ _ (c & h & hs & E & _) _ Lr].
      pose proof (iterate_rows (map (fun c => 32 :: c ++ [10]) (filepath :: comments)) (S (length comments)) headers rows [] Lr) as I.
      rewrite app_nil_r in I. split; [exact I|]. unfold reader_iter. cbn. now rewrite E.
  Qed.

  (** ** The same file for the functions of utilities.py *)
  Theorem is_log fs filepath base safe comments headers rows a ops :
    writable fs (target filepath base) safe -> log_data filepath comments headers rows -> writes comments headers rows a ops ->
    exists fs1 w fs2 text c0 cs, log_writer fs filepath base safe a = (fs1, Ok w) /\ wrun fs1 w ops = (fs2, w, Ok tt) /\
      gd_get streq fs2 (target filepath base) = Some text /\ log_file uspace text (c0 :: cs) headers rows /\
      trims filepath c0 /\ Forall2 trims comments cs.
  Proof.
    intros W D Ws. destruct (session_text _ _ _ _ _ _ _ _ _ W D Ws) as (fs1 & w & fs2 & A & B & C).
    pose proof (data_lines _ _ _ _ D) as L.
    exists fs1, w, fs2. eexists. exists (strip_s uspace filepath), (map (strip_s uspace) comments).
    split; [exact A|]. split; [exact B|]. split; [exact C|]. split; [|split].
    - exists (map comment_line (filepath :: comments) ++ line_of headers :: map line_of rows),
        (map comment_line (filepath :: comments)), (line_of headers), (map line_of rows).
      split; [reflexivity|]. split; [reflexivity|]. split; [exact L|].
      destruct (rows_nonempty _ _ _ _ D) as [Hh Hr]. destruct D as [_ _ (c & h & hs & E & N & _) Lh Lr].
      split; [|split; [|split; [exact Hh|split]]].
      + change (strip_s uspace filepath :: map (strip_s uspace) comments) with (map (strip_s uspace) (filepath :: comments)).
        generalize (filepath :: comments). clear. induction l as [|c cs IH]; cbn [map]; constructor; [|exact IH].
        exists (32 :: c ++ [10]). split; [reflexivity|]. change (skipn 2 (comment_line c)) with ([] ++ c ++ [10]).
        apply trims_pad; [intros ? []|now apply blank_one|apply trims_strip].
      + intros l' El. rewrite E in El. unfold line_of in El. destruct hs; cbn in El; injection El; intros; congruence.
      + exact (reads_join uspace headers Lh).
      + clear - Lr. induction Lr as [|row rows [_ W] Lr IH]; cbn [map]; constructor; [exact (reads_join uspace row W)|exact IH].
    - apply trims_strip.
    - clear. induction comments; cbn [map]; constructor; [apply trims_strip|assumption].
  Qed.

  (** ** check_headers *)
  Lemma skip_hash_ok cl l rest : Forall (fun l => exists l', l = 35 :: l') cl -> (forall l', l <> 35 :: l') ->
    skip_hash (cl ++ l :: rest) = Ok l.
  Proof.
    intros C N. induction C as [|x cl (l' & ->) C IH]; cbn [app skip_hash].
    - replace (is_comment l) with false; [reflexivity|]. destruct l as [|c l]; [reflexivity|]. cbn. symmetry. apply Z.eqb_neq.
      intros ->. exact (N l eq_refl).
    - exact IH.
  Qed.

  Lemma asked_iff needed h : asked needed h <->
    match split dash h with
    | part :: _ => existsb (streq part) needed || existsb (streq h) needed
    | [] => existsb (streq h) needed
    end = true.
  Proof.
    pose proof (split_ne dash h) as Ne. pose proof (join_split dash h) as J. pose proof (split_free dash h) as F.
    destruct (split dash h) as [|part ps] eqn:E; [easy|]. rewrite orb_true_iff, !existsb_in. unfold asked. split.
    - intros [H|(p & rest & Eh & Np & Er & H)]; [now right|]. left. destruct Er as [-> | (r & ->)].
      + assert (Ep : h = p) by (rewrite Eh; exact (app_nil_r p)). subst p. rewrite (split_none dash h Np) in E. now injection E as <- _.
      + rewrite Eh in E. pose proof (split_app dash p r) as Es. rewrite (split_none dash p Np) in Es.
        assert (X : part :: ps = p :: split dash r) by exact (eq_trans (eq_sym E) Es). now injection X as -> _.
    - intros [H|H]; [|now left]. right. exists part. pose proof (Forall_inv F) as Np.
      destruct ps as [|p2 ps].
      + exists []. split; [refine (eq_trans (eq_sym J) _); symmetry; exact (app_nil_r part)|]. auto.
      + exists (45 :: join [dash] (p2 :: ps)). split; [|split; [exact Np|split; [right; eauto|exact H]]]. symmetry. exact J.
  Qed.

  Theorem check_ok fs p text comments headers rows : gd_get streq fs p = Some text -> log_file uspace text comments headers rows ->
    check_headers uspace fs p None = Ok headers /\
    forall needed b, needed <> [] -> (forall h, b h = true <-> asked needed h) ->
      check_headers uspace fs p (Some needed) = Ok (filter b headers).
  Proof.
    intros G (lines & cl & hl & rl & -> & -> & L & C & Hh & Hn & Rh & Rr).
    assert (E : forall sub, check_headers uspace fs p sub =
      match sub with
      | None | Some [] => Ok headers
      | Some needed => Ok (filter (fun h => match split dash h with
                                 | part :: _ => existsb (streq part) needed || existsb (streq h) needed
                                 | [] => existsb (streq h) needed
                                 end) headers)
      end).
    { intros sub. unfold check_headers, open_read. rewrite G. cbn [bind]. rewrite lines_concat by exact L.
      assert (Sk : skip_hash (cl ++ hl :: rl) = Ok hl).
      { apply skip_hash_ok; [|exact Hh]. clear - C. induction C as [|x y cl cs (l' & -> & _) C IH]; constructor; eauto. }
      rewrite Sk. cbn [bind]. rewrite (reads_words uspace headers hl Rh). destruct cl; reflexivity. }
    rewrite !E. split; [reflexivity|]. intros needed b Hne Hb. rewrite E. destruct needed as [|x needed]; [easy|]. f_equal.
    apply filter_ext_in. intros h _. apply Bool.eq_iff_eq_true. rewrite Hb. symmetry. apply asked_iff.
  Qed.

  Theorem check_comments (fs : filesys) p text (cl : list pystr) : gd_get streq fs p = Some text -> text = concat cl ->
    Forall is_line cl -> Forall (fun l => exists l', l = 35 :: l') cl ->
    forall sub, check_headers uspace fs p sub = match cl with [] => Ok [] | _ => Err IndexError end.
  Proof.
    intros G -> L C sub. unfold check_headers, open_read. rewrite G. cbn [bind]. rewrite lines_concat by exact L.
    assert (Sk : skip_hash cl = Err IndexError).
    { clear - C. induction C as [|x cl (l' & ->) C IH]; [reflexivity|exact IH]. }
    destruct cl; [reflexivity|]. now rewrite Sk.
  Qed.

  (** ** Any log *)
  Lemma skip_any : forall cl ls acc n, Forall (fun l : pystr => exists l', l = 35 :: l') cl ->
    match ls with [] => True | l :: _ => is_comment l = false end ->
    reader_skip (cl ++ ls) acc n = (ls, acc ++ map (skipn 1) cl, (n + length cl)%nat).
  Proof.
    intros cl ls acc n C H. revert acc n. induction C as [|l cl (l' & ->) C IH]; intros acc n.
    - cbn [map app length]. rewrite app_nil_r, Nat.add_0_r. destruct ls as [|l ls]; [reflexivity|]. cbn [reader_skip]. now rewrite H.
    - cbn [map app reader_skip length]. change (is_comment (35 :: l')) with true. cbv iota. rewrite IH.
      rewrite <- app_assoc. cbn [app]. f_equal. lia.
  Qed.

  Lemma iterate_any cs n (hs : list pystr) : forall rows rl, Forall2 (reads uspace) rows rl ->
    Forall (fun row : list pystr => length row = length hs) rows ->
    iterate (length rows) (Reader rl cs n (Some (Some hs))) =
      (Reader [] cs n (Some (Some hs)), Ok (map (fun row => combine (map Some hs) row) rows)).
  Proof.
    induction 1 as [|row l rows rl R Rs IH]; intros H; [reflexivity|]. inversion H as [|? ? L H']; subst.
    cbn [length LogFiles.iterate map]. unfold reader_iter. cbn [r_lines readline r_comments r_comment_rows r_file_headers].
    rewrite (reads_words uspace row l R). unfold series. rewrite L, Nat.eqb_refl. cbn [bind]. rewrite (IH H'). reflexivity.
  Qed.

  Theorem read_any (fs : filesys) filepath base (cl rl : list pystr) (hl : pystr) headers rows :
    gd_get streq fs (target filepath base) = Some (concat (cl ++ hl :: rl)) -> Forall is_line (cl ++ hl :: rl) ->
    Forall (fun l => exists l', l = 35 :: l') cl -> (forall l', hl <> 35 :: l') ->
    reads uspace headers hl -> Forall2 (reads uspace) rows rl ->
    exists r0, log_reader fs filepath base = Ok r0 /\
      ((forall c s, hl = c :: s -> isnumeric uninumeric [c] = false) ->
       exists r1, get_headers r0 = (r1, Some headers) /\ r_comments r1 = map (skipn 1) cl /\ r_comment_rows r1 = length cl /\
       (Forall (fun row => length row = length headers) rows ->
        exists r2, iterate (length rows) r1 = (r2, Ok (map (fun row => combine (map Some headers) row) rows)) /\
          (headers <> [] -> snd (reader_iter uspace r2) = Err ValueError))) /\
      ((exists c s, hl = c :: s /\ isnumeric uninumeric [c] = true) ->
       exists r1, get_headers r0 = (r1, None) /\ r_comments r1 = map (skipn 1) cl /\
        snd (reader_iter uspace r1) = Ok [map (fun x => (None, x)) headers]).
  Proof.
    intros G L C Hh Rh Rr. exists (Reader (cl ++ hl :: rl) [] 0 None).
    assert (Ic : is_comment hl = false).
    { destruct hl as [|c s]; [reflexivity|]. cbn. apply Z.eqb_neq. intros ->. exact (Hh s eq_refl). }
    assert (Ne : exists c s, hl = c :: s).
    { apply Forall_elt in L. destruct L as (b & -> & _). destruct b; cbn; eauto. }
    assert (Sk : reader_skip (cl ++ hl :: rl) [] 0 = (hl :: rl, map (skipn 1) cl, length cl)) by (rewrite (skip_any cl (hl :: rl) [] 0 C Ic); reflexivity).
    split; [|split].
    - unfold log_reader. replace (match base with Some b => path_join2 b filepath | None => filepath end) with (target filepath base) by (now destruct base).
      unfold open_read. rewrite G. cbn [bind]. now rewrite lines_concat by exact L.
    - intros U. unfold LogFiles.get_headers. cbn [r_lines r_comments r_comment_rows]. rewrite Sk.
      destruct Ne as (c & s & E). subst hl. rewrite (U c s eq_refl). cbn [readline].
      rewrite (reads_words uspace headers (c :: s) Rh). eexists. split; [reflexivity|].
      split; [reflexivity|]. split; [reflexivity|]. intros Len. eexists. split; [apply iterate_any; assumption|].
      intros Hn. unfold reader_iter. cbn. now destruct headers.
    - intros (c & s & E & U). unfold LogFiles.get_headers. cbn [r_lines r_comments r_comment_rows]. rewrite Sk.
      subst hl. rewrite U. eexists. split; [reflexivity|]. split; [reflexivity|].
      unfold reader_iter. cbn [r_lines readline r_file_headers snd]. rewrite (reads_words uspace headers (c :: s) Rh). reflexivity.
  Qed.

  (** ** What does not work *)
  Theorem one_row r rows : snd (reader_iter uspace r) = Ok rows -> length rows = 1%nat.
  Proof.
    unfold reader_iter. destruct (readline (r_lines r)) as [line ls]. cbn [snd].
    destruct (r_file_headers r) as [hs|]; [|discriminate]. destruct (series _ hs); [|discriminate]. cbn [bind].
    intros E. injection E as <-. reflexivity.
  Qed.

  Lemma frame_row fs filepath base safe headers csv : writable fs (target filepath base) safe ->
    log_data filepath [] headers [] -> wordy filepath -> length headers <> 2%nat ->
    (exists lines : list pystr, csv = concat lines /\ Forall is_line lines) ->
    exists fs1 w fs2, log_writer fs filepath base safe (HList headers) = (fs1, Ok w) /\
      wrun fs1 w [WFrame (length headers) csv] = (fs2, w, Ok tt) /\
    exists r0 r1, log_reader fs2 filepath base = Ok r0 /\ get_headers r0 = (r1, Some headers) /\
      snd (reader_iter uspace r1) = Err ValueError.
  Proof.
    intros W D Wp N2 (lines & -> & L).
    assert (Fi : Forall (fits (length headers)) [WFrame (length headers) (concat lines)]) by (constructor; [reflexivity|constructor]).
    destruct (written fs filepath base safe (HList headers) headers _ W (names_list headers) Fi) as (fs1 & w & fs2 & A & B & C).
    exists fs1, w, fs2. split; [exact A|]. split; [exact B|].
    assert (Et : first_text filepath headers ++ concat (map (op_text filepath) [WFrame (length headers) (concat lines)]) =
      concat ((map comment_line [filepath] ++ line_of headers :: map line_of []) ++ comment_line filepath :: lines)).
    { rewrite concat_app. cbn [map app concat op_text]. destruct (rows_nonempty _ _ _ _ D) as [Hh _]. unfold first_text, comment_line.
      destruct headers; [easy|]. rewrite !app_nil_r. now rewrite <- !app_assoc. }
    rewrite Et in C.
    assert (La : Forall is_line ((map comment_line [filepath] ++ line_of headers :: map line_of []) ++ comment_line filepath :: lines)).
    { apply Forall_app. split; [exact (data_lines _ _ _ _ D)|]. constructor; [apply comment_is_line, (ld_path _ _ _ _ _ _ D)|exact L]. }
    exists (Reader ((map comment_line [filepath] ++ line_of headers :: map line_of []) ++ comment_line filepath :: lines) [] 0 None).
    exists (Reader (comment_line filepath :: lines) (map (fun c => 32 :: c ++ [10]) [filepath]) 1 (Some (Some headers))).
    split; [|split].
    - unfold log_reader. replace (match base with Some b => path_join2 b filepath | None => filepath end) with (target filepath base) by (now destruct base).
      unfold open_read. rewrite C. cbn [bind]. now rewrite lines_concat by exact La.
    - destruct D as [_ _ (c & h & hs & E & N & U) Lh _]. unfold LogFiles.get_headers. cbn [r_lines r_comments r_comment_rows].
      assert (El : exists s, line_of headers = c :: s) by (rewrite E; unfold line_of; destruct hs; cbn; eauto).
      destruct El as (s & El). cbn [map]. rewrite <- (app_assoc [comment_line filepath]).
      change [comment_line filepath] with (map comment_line [filepath]). rewrite skip_ok.
      + cbn [app]. rewrite El, U. cbn [readline]. rewrite <- El, (line_words headers Lh). reflexivity.
      + cbn [app]. rewrite El. cbn. now apply Z.eqb_neq.
    - unfold reader_iter. cbn [r_lines readline r_file_headers snd].
      assert (Ew : words (comment_line filepath) = [[35]; filepath]).
      { apply reads_words. unfold comment_line. apply (reads_more uspace [] [35] 32 (filepath ++ [10]) [filepath]).
        - intros ? [].
        - split; [discriminate|]. intros ? [<-|[]]. reflexivity.
        - reflexivity.
        - apply (reads_more uspace [32] filepath 10 [] []); [now apply blank_one|exact Wp|reflexivity|].
          constructor. now apply blank_one. }
      rewrite Ew. unfold series. destruct headers as [|h1 [|h2 [|h3 hs]]]; [reflexivity|reflexivity|easy|reflexivity].
  Qed.
End S.

Theorem no_directory fs filepath base safe a : ~ In 47 filepath -> (base = None \/ base = Some []) ->
  log_writer fs filepath base safe a = (fs, Err OSError).
Proof.
  intros N B. assert (Sp : path_split filepath = ([], filepath)).
  { unfold path_split. rewrite (cut_last_none slash filepath N). reflexivity. }
  unfold log_writer. destruct B as [-> | ->]; rewrite Sp; reflexivity.
Qed.

Theorem write_log_fails to_csv fs p base safe :
  (exists e, snd (write_log to_csv fs p base safe) = Err e) /\
  (forall t, safe = true -> gd_get streq fs (target p base) = Some t ->
     gd_get streq (fst (write_log to_csv fs p base safe)) (target p base) = Some t) /\
  (writable fs (target p base) safe -> exists fs', write_log to_csv fs p base safe = (fs', Err AttributeError) /\
     gd_get streq fs' (target p base) = Some ([35; 32] ++ p ++ [10])).
Proof.
  unfold write_log. split; [|split].
  - destruct (log_writer fs p base safe HNone) as [fs' [w|e]]; [|exists e; reflexivity].
    exists AttributeError. unfold enter. now destruct (w_fp w).
  - intros t -> G. pose proof (session_safe fs p base HNone [] _ _ G) as K. unfold session in K. cbn [wrun] in K.
    destruct (log_writer fs p base true HNone) as [fs' [w|e]]; [|exact K]. unfold enter. destruct (w_fp w); exact K.
  - intros W. destruct (writer_opens fs p base safe HNone [] W names_none) as (fs' & -> & G). exists fs'. split; [reflexivity|].
    rewrite G. unfold first_text. now rewrite app_nil_r.
Qed.

(** A string is written letter by letter. *)
Theorem string_letters fs w s old : w_fp w = Some true -> gd_get streq fs (w_fullpath w) = Some old -> s <> [] ->
  exists fs', write_list_str fs w s = (fs', Ok tt) /\
    gd_get streq fs' (w_fullpath w) = Some (old ++ line_of (map (fun c => [c]) s)).
Proof.
  intros F G N. unfold write_list_str, write_list. destruct s as [|c s]; [easy|]. cbn [map].
  rewrite (write_open _ _ _ _ F G). eexists. split; [reflexivity|]. apply get_same.
Qed.

Theorem with_existing fs filepath base a t : writable fs (target filepath base) false -> gd_get streq fs (target filepath base) = Some t ->
  exists w, log_writer fs filepath base true a = (fs, Ok w) /\ enter w = TNone.
Proof.
  intros [(d & n & E & Hd & Hl & Hn & Hs & Gd) _] G. unfold log_writer. rewrite <- target_eq.
  set (p := target filepath base) in *. assert (Sp : path_split p = (d, n)) by (rewrite E; now apply split_target).
  rewrite Sp. cbn [fst].
  unfold makedirs. destruct d as [|d0 d]; [easy|]. rewrite (mem_none _ _ Gd).
  unfold is_directory. rewrite Sp. cbn [snd]. destruct n as [|n0 n]; [easy|].
  rewrite (mem_some _ _ _ G). cbn. eauto.
Qed.
