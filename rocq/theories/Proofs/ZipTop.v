(** What a call of z.py does. *)
From Coq Require Import Lra.
From Verif Require Import Spec.ZipSpec Proofs.PyFacts Proofs.DictFacts Proofs.StrFacts Proofs.ACFacts Proofs.ACModel Proofs.ACBytes Proofs.ACLength Proofs.ACLossless Proofs.ZipModels Proofs.ZipFacts.
Open Scope Z_scope.

(** ** The bars *)
Definition parts (l : nat) : nat := Z.to_nat ((Z.of_nat l + 1023) / 1024).
Definition nth_bar (total : Z) (i : nat) : pystr :=
  let d := done_after total (Z.of_nat i) in bar (60 * d / total) (100 * d / total).

Lemma parts_more l : (1024 < l)%nat -> parts l = S (parts (l - 1024)).
Proof.
  intros H. unfold parts. replace (Z.of_nat l + 1023) with (Z.of_nat (l - 1024) + 1023 + 1 * 1024) by lia.
  rewrite Z.div_add by lia. rewrite Z2Nat.inj_add; [lia| |lia]. apply Z.div_pos; lia.
Qed.

Lemma parts_one l : (0 < l <= 1024)%nat -> parts l = 1%nat.
Proof.
  intros H. unfold parts. replace ((Z.of_nat l + 1023) / 1024) with 1; [reflexivity|].
  apply (Z.div_unique _ _ _ (Z.of_nat l - 1)); lia.
Qed.

Lemma shown_bars n : 0 < n -> forall fuel data j, (length data <= fuel)%nat -> 1024 * Z.of_nat j + Z.of_nat (length data) = n ->
  shows (bytes_of_chunks n (1024 * Z.of_nat j) (chunks fuel data)) = map (nth_bar n) (seq j (parts (length data))).
Proof.
  intros Hn. induction fuel as [|fuel IH]; intros data j Hf Hc.
  - destruct data; [reflexivity|cbn in Hf; lia].
  - destruct data as [|x data]; [reflexivity|]. set (l := x :: data) in *.
    assert (Hl : (0 < length l)%nat) by (cbn; lia).
    change (chunks (S fuel) l) with (firstn 1024 l :: chunks fuel (skipn 1024 l)). cbn [bytes_of_chunks].
    destruct (Z.eqb_spec n 0); [lia|]. rewrite shows_app, shows_map. cbn [app].
    set (c := 1024 * Z.of_nat j + Z.of_nat (length (firstn 1024 l))).
    assert (Ec : c = done_after n (Z.of_nat j)).
    { unfold c, done_after. rewrite firstn_length. lia. }
    change (shows (Show (progress_bar (IZR c / IZR n)) :: bytes_of_chunks n c (chunks fuel (skipn 1024 l))))
      with (progress_bar (IZR c / IZR n) :: shows (bytes_of_chunks n c (chunks fuel (skipn 1024 l)))).
    assert (Hb : progress_bar (IZR c / IZR n) = nth_bar n j).
    { unfold nth_bar. rewrite <- Ec. apply bar_text; [|exact Hn]. rewrite Ec. unfold done_after. lia. }
    rewrite Hb. destruct (Nat.le_gt_cases (length l) 1024) as [H|H].
    + rewrite parts_one by lia. cbn [seq map]. f_equal. rewrite skipn_all2 by exact H. destruct fuel; reflexivity.
    + rewrite parts_more by exact H. cbn [seq map]. f_equal.
      replace c with (1024 * Z.of_nat (S j)) by (unfold c; rewrite firstn_length; lia).
      rewrite IH; [now rewrite skipn_length| |]; rewrite skipn_length; lia.
Qed.

Lemma progress data : data <> [] -> let n := Z.of_nat (length data) in
  yields (bytes_with_progress data n) = data /\ quiet (bytes_with_progress data n) /\
  shows (bytes_with_progress data n) = bars n.
Proof.
  intros Hd n. assert (Hn : 0 < n) by (unfold n; destruct data; [easy|cbn [length]; lia]).
  unfold bytes_with_progress. destruct (reading n ltac:(lia) (chunks (length data) data) 0) as [Y Q].
  split; [rewrite Y; now apply chunks_concat|]. split; [exact Q|].
  change 0 with (1024 * Z.of_nat 0). rewrite (shown_bars n Hn); [|lia|unfold n; lia].
  unfold bars. f_equal.
Qed.

(** ** The code *)
Lemma code_bits_ok {S} (C : coder_model S) fuel bits : forall s s' out, encode_all C 32 fuel s bits = Ok (s', out) ->
  code_bits fuel C s bits = (out, Ok s').
Proof.
  induction bits as [|b bits IH]; intros s s' out E; cbn [encode_all code_bits] in *; [injection E as <- <-; reflexivity|].
  destruct (encode C 32 fuel s b) as [[s1 o1]|]; [|discriminate]. cbn [bind] in E.
  destruct (encode_all C 32 fuel s1 bits) as [[s2 o2]|] eqn:E2; [|discriminate]. cbn [bind] in E. injection E as <- <-.
  now rewrite (IH _ _ _ E2).
Qed.

Lemma encode_all_app {S} (C : coder_model S) fuel a b : forall s s' out, encode_all C 32 fuel s (a ++ b) = Ok (s', out) ->
  exists s1 o1 o2, encode_all C 32 fuel s a = Ok (s1, o1) /\ encode_all C 32 fuel s1 b = Ok (s', o2) /\ out = o1 ++ o2.
Proof.
  induction a as [|x a IH]; intros s s' out E; cbn [app encode_all] in *.
  - exists s, [], out. repeat split. exact E.
  - destruct (encode C 32 fuel s x) as [[s1 o1]|]; [|discriminate]. cbn [bind] in *.
    destruct (encode_all C 32 fuel s1 (a ++ b)) as [[s2 o2]|] eqn:E2; [|discriminate]. cbn [bind] in E. injection E as <- <-.
    destruct (IH _ _ _ E2) as (s3 & o3 & o4 & E3 & E4 & ->). rewrite E3. cbn [bind].
    exists s3, (o1 ++ o3), o4. rewrite <- app_assoc. repeat split. exact E4.
Qed.

Lemma code_events_ok {S} (C : coder_model S) fuel evs : quiet evs -> forall s s' out,
  encode_all C 32 fuel s (unpack (yields evs)) = Ok (s', out) -> code_events fuel C s evs = (shows evs, out, Ok s').
Proof.
  induction 1 as [|e evs He _ IH]; intros s s' out E; [injection E as <- <-; reflexivity|].
  destruct e as [b|t|x]; [| |contradiction].
  - change (unpack (yields (Yield b :: evs))) with (bits_of b ++ unpack (yields evs)) in E.
    apply encode_all_app in E as (s1 & o1 & o2 & E1 & E2 & ->). cbn [code_events].
    assert (E1' : code_bits fuel C s (unpack [b]) = (o1, Ok s1)).
    { change (unpack [b]) with (bits_of b ++ []). rewrite app_nil_r. now apply code_bits_ok. }
    rewrite E1', (IH _ _ _ E2). reflexivity.
  - cbn [code_events]. change (yields (Show t :: evs)) with (yields evs) in E. rewrite (IH _ _ _ E). reflexivity.
Qed.

Lemma code_bytes_ok {S} (C : coder_model S) fuel m evs code : quiet evs ->
  compress C 32 fuel m (unpack (yields evs)) = Ok code -> code_bytes fuel C m evs = (shows evs, pack code, Ok tt).
Proof.
  intros Hq E. unfold compress in E. destruct (encode_all C 32 fuel (enc_init 32 m) (unpack (yields evs))) as [[s o]|] eqn:Eo; [|discriminate].
  injection E as <-. unfold code_bytes. rewrite (code_events_ok C fuel evs Hq _ _ _ Eo). reflexivity.
Qed.

(** ** The choice of the model *)
Lemma choose_used name : usable name -> exists S (M : model S) m, used name S M m /\
  forall depth, choose_model name depth = Ok (Chosen (coder_of M) m None).
Proof.
  intros [<- | [<- | [<- | []]]].
  - exists kt, KT_model, (kt_init [0; 1]). split; [constructor|]. reflexivity.
  - do 3 eexists. split; [constructor|]. reflexivity.
  - destruct fmn_made as (s & Hs). do 3 eexists. split; [apply used_FMN; exact Hs|]. intros depth.
    change (choose_model (lit "FMN") depth) with
      (do s <- fmn_init (LogStore_class ktb) 10 ktb_init; Ok (Chosen (coder_of (FMN_model KTB_model (LogStore_class ktb) 10)) s None)).
    rewrite Hs. reflexivity.
Qed.

Lemma choose_with_history name depth : with_history name -> choose_model name depth = Ok (Chosen needs_history tt (Some 1)).
Proof. intros [<- | [<- | [<- | [<- | []]]]]; reflexivity. Qed.

Lemma choose_common name depth : common_history name -> choose_model name depth = Err AttributeError.
Proof. intros [<- | [<- | [<- | [<- | []]]]]; reflexivity. Qed.

Lemma choose_unknown name depth : ~ usable name -> ~ with_history name -> ~ common_history name -> choose_model name depth = Err NameError.
Proof.
  intros H1 H2 H3. unfold choose_model.
  assert (H : forall x, name <> lit x -> streq name (lit x) = false).
  { intros x Hx. destruct (streq name (lit x)) eqn:E; [|reflexivity]. exfalso. apply Hx. now apply streq_spec. }
  unfold usable, with_history, common_history in *. cbn [In] in *.
  rewrite !H; [reflexivity|..]; intros E; rewrite E in *; tauto.
Qed.

(** ** Runs *)
Section runs.
  Variables (uni : pystr -> option Z) (little : bool) (fmt : nat -> R -> pystr) (elapsed memory : R) (fuel : nat).
  Local Notation run := (z_main uni little fmt elapsed memory fuel).

  Lemma z_main_compress fs args S (C : coder_model S) m nodes data header :
    depth_ok uni args -> (forall depth, choose_model (z_model args) depth = Ok (Chosen C m nodes)) ->
    z_compress args = true -> gd_get streq fs (z_infile args) = Some data -> length_bytes little (Z.of_nat (length data)) = Ok header ->
    run fs args =
      let n := Z.of_nat (length data) in
      let fs1 := gd_set streq fs (z_outfile args) [] in
      let data' := match gd_get streq fs1 (z_infile args) with Some d => d | None => [] end in
      let '(shown, code, r) := code_bytes fuel C m (bytes_with_progress data' n) in
      let fs2 := gd_set streq fs1 (z_outfile args) (header ++ code) in
      match r with
      | Err e => (fs2, announcement (z_infile args) n :: shown, Err e)
      | Ok _ => let (lines, r) := statistics fmt elapsed memory (Z.of_nat (length code)) n nodes in
                (fs2, announcement (z_infile args) n :: shown ++ lines, r)
      end.
  Proof.
    intros (d & Hd) Hc Hz Hf Hh. unfold z_main. rewrite Hd, Hc, Hz, Hf, Hh. reflexivity.
  Qed.

  Lemma get_two (fs : list (pystr * list Z)) p v v' q :
    gd_get streq (gd_set streq (gd_set streq fs p v) p v') q = if streq p q then Some v' else gd_get streq fs q.
  Proof.
    rewrite !(get_set streq streq_spec). now destruct (streq p q).
  Qed.
End runs.
