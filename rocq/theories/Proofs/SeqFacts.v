(** update_seq, log_predict_seq, Factored. *)
From Coq Require Import Lra Lia Arith.
From Verif Require Import Model.Iface Model.Factored Model.KT Spec.SeqSpec.
From Verif Require Import Proofs.RealFacts Proofs.ProbFacts.
Open Scope R_scope.

Lemma clear_suffix (hist seq : list Z) : seq <> [] ->
  slice_clear_from (hist ++ seq) (- Z.of_nat (length seq)) = hist.
Proof.
  intros Hne. unfold slice_clear_from, slice_start. destruct seq as [|x seq]; [congruence|].
  replace (- Z.of_nat (length (x :: seq)) <? 0)%Z with true by (symmetry; apply Z.ltb_lt; cbn [length]; lia).
  rewrite app_length. replace (Z.to_nat _) with (length hist) by lia.
  rewrite firstn_app, firstn_all, Nat.sub_diag. cbn. apply app_nil_r.
Qed.

Lemma clear_everything (hist : list Z) : slice_clear_from hist (- Z.of_nat 0) = [].
Proof. unfold slice_clear_from, slice_start. cbn. rewrite Z.min_l by lia. reflexivity. Qed.

Section seqs.
  Context {S : Type} (M : model S).

  Lemma update_seq_loop_run seq : forall s hist w rv,
    update_seq_loop M s seq hist w rv =
    do (s', l) <- run M s (events_from hist seq w); Ok (s', hist ++ seq, rv + l).
  Proof.
    induction seq as [|x seq IH]; intros s hist w rv; cbn [update_seq_loop events_from run bind].
    - rewrite app_nil_r, Rplus_0_r. reflexivity.
    - cbn [ev_sym ev_hist ev_wt]. destruct (m_update M s x hist w) as [[s1 l]|e]; cbn [bind]; [|reflexivity].
      rewrite IH. destruct (run M s1 (events_from (hist ++ [x]) seq w)) as [[s2 ls]|e]; cbn [bind]; [|reflexivity].
      rewrite <- app_assoc. cbn [app]. rewrite Rplus_assoc. reflexivity.
  Qed.

  (** The value is the sum of the single updates; the history is restored. *)
  Lemma update_seq_spec s seq hist w : seq <> [] ->
    update_seq M s seq hist w = do (s', l) <- run M s (events_from hist seq w); Ok (s', hist, l).
  Proof.
    intros Hne. unfold update_seq. rewrite update_seq_loop_run.
    destruct (run M s (events_from hist seq w)) as [[s' l]|e]; cbn [bind]; [|reflexivity].
    rewrite clear_suffix by exact Hne. rewrite Rplus_0_l. reflexivity.
  Qed.

  Lemma update_seq_empty s hist w : update_seq M s [] hist w = Ok (s, [], 0).
  Proof. unfold update_seq. cbn [update_seq_loop bind length]. rewrite clear_everything. reflexivity. Qed.

  Lemma log_predict_seq_loop_sum seq : forall s hist rv,
    log_predict_seq_loop M s seq hist rv = do l <- sum_logp M s hist seq; Ok (hist ++ seq, rv + l).
  Proof.
    induction seq as [|x seq IH]; intros s hist rv; cbn [log_predict_seq_loop sum_logp bind].
    - rewrite app_nil_r, Rplus_0_r. reflexivity.
    - destruct (m_logp M s x hist) as [l|e]; cbn [bind]; [|reflexivity].
      rewrite IH. destruct (sum_logp M s (hist ++ [x]) seq) as [ls|e]; cbn [bind]; [|reflexivity].
      rewrite <- app_assoc. cbn [app]. rewrite Rplus_assoc. reflexivity.
  Qed.

  Lemma log_predict_seq_spec s seq hist : seq <> [] ->
    log_predict_seq M s seq hist = do l <- sum_logp M s hist seq; Ok (hist, l).
  Proof.
    intros Hne. unfold log_predict_seq. rewrite log_predict_seq_loop_sum.
    destruct (sum_logp M s hist seq) as [l|e]; cbn [bind]; [|reflexivity].
    rewrite clear_suffix by exact Hne. rewrite Rplus_0_l. reflexivity.
  Qed.

  Lemma log_predict_seq_empty s hist : log_predict_seq M s [] hist = Ok ([], 0).
  Proof. unfold log_predict_seq. cbn [log_predict_seq_loop bind length]. rewrite clear_everything. reflexivity. Qed.

  Lemma events_from_app hist seq1 : forall seq2 w,
    events_from hist (seq1 ++ seq2) w = events_from hist seq1 w ++ events_from (hist ++ seq1) seq2 w.
  Proof.
    revert hist; induction seq1 as [|x seq1 IH]; intros hist seq2 w; cbn [app events_from].
    - rewrite app_nil_r. reflexivity.
    - rewrite IH, <- app_assoc. reflexivity.
  Qed.

  (** Splitting the sequence over two calls gives the same state and the same total. *)
  Lemma update_seq_split s seq1 seq2 hist w : seq1 <> [] -> seq2 <> [] ->
    update_seq M s (seq1 ++ seq2) hist w =
    do (s1, h1, l1) <- update_seq M s seq1 hist w;
    do (s2, _, l2) <- update_seq M s1 seq2 (h1 ++ seq1) w;
    Ok (s2, h1, l1 + l2).
  Proof.
    intros H1 H2. rewrite (update_seq_spec s (seq1 ++ seq2)) by (destruct seq1; [congruence|discriminate]).
    rewrite (update_seq_spec s seq1) by exact H1.
    rewrite events_from_app, run_app.
    destruct (run M s (events_from hist seq1 w)) as [[s1 l1]|e]; cbn [bind]; [|reflexivity].
    rewrite update_seq_spec by exact H2.
    destruct (run M s1 (events_from (hist ++ seq1) seq2 w)) as [[s2 l2]|e]; cbn [bind]; reflexivity.
  Qed.

  (** The probabilities of all sequences of a given length sum to one. *)
  Lemma words_sum A okh okw Inv (HL : lawful M A okh okw Inv) :
    (forall h a, okh h -> In a A -> okh (h ++ [a])) -> forall n s hist w,
    Inv s -> okh hist -> okw w ->
    Rsum (map (fun seq => seq_prob M s (events_from hist seq w)) (words A n)) = 1.
  Proof.
    intros Hext. induction n as [|n IH]; intros s hist w Hs Hh Hw.
    - cbn. lra.
    - cbn [words]. rewrite flat_map_concat_map, concat_map, map_map.
      assert (G : forall L : list (list R), Rsum (concat L) = Rsum (map Rsum L)).
      { induction L as [|l L IHL]; [reflexivity|]. cbn [concat map]. rewrite Rsum_app, Rsum_cons, IHL. reflexivity. }
      rewrite G, map_map. rewrite <- (law_norm _ _ _ _ _ HL s hist Hs Hh). f_equal. apply map_ext_in. intros a Ha.
      rewrite map_map. destruct (law_step _ _ _ _ _ HL s a hist w Hs Ha Hh Hw) as (s' & l & Hu & Hp & Hi).
      erewrite map_ext; [|intros seq; cbn [events_from seq_prob ev_sym ev_hist ev_wt]; rewrite Hu; reflexivity].
      unfold pred_prob. rewrite Hp.
      transitivity (exp l * Rsum (map (fun seq => seq_prob M s' (events_from (hist ++ [a]) seq w)) (words A n))).
      + generalize (words A n). intros L. induction L as [|x L IHL]; cbn [map]; [rewrite Rmult_0_r; reflexivity|].
        rewrite !Rsum_cons, IHL. ring.
      + rewrite IH by auto. ring.
  Qed.
End seqs.

Section factored.
  Context {S : Type} (M : model S).

  Lemma nth_error_list_set_same {X} (l : list X) i x : (i < length l)%nat -> nth_error (list_set l i x) i = Some x.
  Proof. revert i; induction l as [|y l IH]; intros [|i] H; cbn in *; try lia; [reflexivity|]. apply IH. lia. Qed.

  Lemma nth_error_list_set_other {X} (l : list X) i j x : i <> j -> nth_error (list_set l i x) j = nth_error l j.
  Proof.
    revert i j; induction l as [|y l IH]; intros [|i] [|j] H; cbn; try reflexivity; try congruence.
    apply IH. congruence.
  Qed.

  Lemma list_set_length {X} (l : list X) i x : length (list_set l i x) = length l.
  Proof. revert i; induction l as [|y l IH]; intros [|i]; cbn; auto. Qed.

  Lemma fac_index_ok (s : factored (S := S)) h : s <> [] -> fac_index s h = Ok (Nat.modulo (length h) (length s)) /\
    exists m, nth_error s (Nat.modulo (length h) (length s)) = Some m.
  Proof.
    intros Hne. split; [destruct s; [congruence|reflexivity]|].
    assert (H : (Nat.modulo (length h) (length s) < length s)%nat).
    { apply Nat.mod_upper_bound. destruct s; [congruence|discriminate]. }
    apply nth_error_Some in H. destruct (nth_error s _) as [m|]; [|congruence]. exists m. reflexivity.
  Qed.

  Lemma fac_log_predict_spec s a h m : nth_error s (Nat.modulo (length h) (length s)) = Some m ->
    fac_log_predict M s a h = m_logp M m a h.
  Proof.
    intros H. unfold fac_log_predict. destruct s as [|x s]; [destruct (Nat.modulo _ _); discriminate|].
    cbn [fac_index bind]. rewrite H. reflexivity.
  Qed.

  Lemma fac_update_spec s a h w m : nth_error s (Nat.modulo (length h) (length s)) = Some m ->
    fac_update M s a h w =
    do (m', l) <- m_update M m a h 1; Ok (list_set s (Nat.modulo (length h) (length s)) m', l).
  Proof.
    intros H. unfold fac_update. destruct s as [|x s]; [destruct (Nat.modulo _ _); discriminate|].
    cbn [fac_index bind]. rewrite H. reflexivity.
  Qed.

  (** One update touches exactly the factor of this position. *)
  Lemma fac_update_route s a h w s' l : fac_update M s a h w = Ok (s', l) ->
    let i := Nat.modulo (length h) (length s) in
    exists m m', nth_error s i = Some m /\ m_update M m a h 1 = Ok (m', l) /\
      nth_error s' i = Some m' /\ length s' = length s /\
      forall j, j <> i -> nth_error s' j = nth_error s j.
  Proof.
    intros H i. assert (Hne : s <> []) by (intros ->; discriminate).
    destruct (fac_index_ok s h Hne) as (_ & m & Hm). fold i in Hm.
    rewrite (fac_update_spec s a h w m Hm) in H.
    destruct (m_update M m a h 1) as [[m' l']|e] eqn:E; cbn [bind] in H; [|discriminate].
    injection H as <- <-. exists m, m'. split; [exact Hm|]. split; [exact E|].
    split; [apply nth_error_list_set_same, nth_error_Some; fold i; rewrite Hm; discriminate|].
    split; [apply list_set_length|]. intros j Hj. apply nth_error_list_set_other. intros <-. apply Hj. reflexivity.
  Qed.

  Lemma Rsum_seq_update n (g h : nat -> R) i d : (i < n)%nat ->
    (forall j, j <> i -> h j = g j) -> h i = g i + d ->
    Rsum (map h (seq 0 n)) = Rsum (map g (seq 0 n)) + d.
  Proof.
    intros Hi Hne He. assert (G : forall a k, Rsum (map h (seq a k)) = Rsum (map g (seq a k)) +
       (if (Nat.leb a i && Nat.ltb i (a + k))%bool then d else 0)).
    { intros a k; revert a; induction k as [|k IH]; intros a; cbn [seq map].
      - replace (Nat.leb a i && Nat.ltb i (a + 0))%bool with false; [cbn; lra|].
        symmetry. apply andb_false_iff. rewrite Nat.leb_gt, Nat.ltb_ge. lia.
      - rewrite !Rsum_cons, IH. destruct (Nat.eq_dec a i) as [->|Ha].
        + rewrite He. replace (Nat.leb (Datatypes.S i) i && _)%bool with false
            by (symmetry; apply andb_false_iff; left; apply Nat.leb_gt; lia).
          replace (Nat.leb i i && Nat.ltb i (i + Datatypes.S k))%bool with true
            by (symmetry; apply andb_true_iff; rewrite Nat.leb_le, Nat.ltb_lt; lia). lra.
        + rewrite (Hne a Ha). replace (Nat.leb (Datatypes.S a) i) with (Nat.leb a i).
          2:{ apply eq_true_iff_eq. rewrite !Nat.leb_le. lia. }
          replace (a + Datatypes.S k)%nat with (Datatypes.S a + k)%nat by lia. lra. }
    rewrite G. replace (Nat.leb 0 i && Nat.ltb i (0 + n))%bool with true; [lra|].
    symmetry. apply andb_true_iff. rewrite Nat.leb_le, Nat.ltb_lt. lia.
  Qed.

  (** A whole run: each factor goes through its own events, and the total is the sum. *)
  Lemma fac_run evs : forall s s' l, run (Factored_model M) s evs = Ok (s', l) -> s <> [] ->
    length s' = length s /\
    exists ls : nat -> R, (forall i m, nth_error s i = Some m ->
      exists m', nth_error s' i = Some m' /\ run M m (routed (length s) i evs) = Ok (m', ls i)) /\
    l = Rsum (map ls (seq 0 (length s))).
  Proof.
    induction evs as [|e evs IH]; intros s s' l H Hne.
    - cbn in H. injection H as <- <-. split; [reflexivity|]. exists (fun _ => 0). split.
      + intros i m Hm. exists m. split; [exact Hm|reflexivity].
      + rewrite Rsum_const. lra.
    - cbn [run] in H. change (m_update (Factored_model M)) with (fac_update M) in H.
      destruct (fac_update M s (ev_sym e) (ev_hist e) (ev_wt e)) as [[s1 l1]|er] eqn:E; cbn [bind] in H; [|discriminate].
      destruct (run (Factored_model M) s1 evs) as [[s2 l2]|er] eqn:E2; cbn [bind] in H; [|discriminate].
      injection H as <- <-. apply fac_update_route in E. cbn zeta in E.
      set (k := length s) in *. set (i := Nat.modulo (length (ev_hist e)) k) in *.
      destruct E as (m & m' & Hm & Hu & Hm' & Hlen & Hoth).
      destruct (IH s1 s2 l2 E2) as (Hl2 & ls & Hls & Hsum); [destruct s1; [cbn in Hlen; destruct s; [congruence|discriminate]|discriminate]|].
      rewrite Hlen in *. split; [exact Hl2|].
      exists (fun j => if Nat.eqb i j then ls j + l1 else ls j). split.
      + intros j mj Hj. unfold routed. cbn [filter]. fold i.
        destruct (Nat.eqb_spec i j) as [<-|Hij].
        * rewrite Hm in Hj. injection Hj as <-. destruct (Hls i m' Hm') as (m2 & Hm2 & Hr).
          exists m2. split; [exact Hm2|]. cbn [map run ev_sym ev_hist ev_wt]. rewrite Hu. cbn [bind].
          unfold routed in Hr. fold k in Hr. rewrite Hr. cbn [bind]. f_equal. f_equal. lra.
        * apply Hls. rewrite Hoth by congruence. exact Hj.
      + rewrite Hsum. rewrite Rplus_comm. symmetry. apply Rsum_seq_update with (i := i).
        * unfold i, k. apply Nat.mod_upper_bound. destruct s; [congruence|discriminate].
        * intros j Hj. destruct (Nat.eqb_spec i j); [congruence|reflexivity].
        * rewrite Nat.eqb_refl. reflexivity.
  Qed.

  (** Factored models of lawful factors are lawful. *)
  Lemma fac_lawful A okh okw Inv : lawful M A okh okw Inv -> okw 1 ->
    lawful (Factored_model M) A okh (fun _ => True) (fun s => s <> [] /\ Forall Inv s).
  Proof.
    intros HL H1. split.
    - intros s a h w (Hne & HI) Ha Hh _. destruct (fac_index_ok s h Hne) as (_ & m & Hm).
      assert (Him : Inv m). { rewrite Forall_forall in HI. apply HI. eapply nth_error_In; eassumption. }
      destruct (law_step _ _ _ _ _ HL m a h 1 Him Ha Hh H1) as (m' & l & Hu & Hp & Hi).
      exists (list_set s (Nat.modulo (length h) (length s)) m'), l. cbn.
      rewrite (fac_update_spec s a h w m Hm), (fac_log_predict_spec s a h m Hm), Hu, Hp.
      split; [reflexivity|]. split; [reflexivity|]. split.
      + intros E. apply (f_equal (@length _)) in E. rewrite list_set_length in E. destruct s; [congruence|discriminate].
      + revert HI Hi. clear. generalize (Nat.modulo (length h) (length s)). intros i HI Hi.
        revert i; induction HI as [|x s Hx HI IH]; intros [|i]; cbn; auto using Forall.
    - intros s h (Hne & HI) Hh. destruct (fac_index_ok s h Hne) as (_ & m & Hm).
      assert (Him : Inv m). { rewrite Forall_forall in HI. apply HI. eapply nth_error_In; eassumption. }
      rewrite <- (law_norm _ _ _ _ _ HL m h Him Hh). f_equal. apply map_ext. intros a.
      unfold pred_prob. cbn. rewrite (fac_log_predict_spec s a h m Hm). reflexivity.
  Qed.

  (** The weight is not passed on. *)
  Lemma fac_weight_ignored s a h w w' : fac_update M s a h w = fac_update M s a h w'.
  Proof. reflexivity. Qed.
End factored.

From Verif Require Import Proofs.PyFacts Proofs.KTBinFacts Proofs.CTWProps Proofs.PTWProps.

Lemma ktb_pred0 a b h : 0 < a -> 0 < b -> ktb_log_predict [a; b] 0 h = Ok (ln (a / (a + b))).
Proof.
  intros Ha Hb. unfold ktb_log_predict. rewrite !py_get2_0, !py_get2_1. cbn [bind].
  unfold py_div. destruct (Req_EM_T (a + b) 0) as [E|_]; [lra|]. cbn [bind]. unfold py_log.
  destruct (Rlt_dec 0 (a / (a + b))) as [|n]; [reflexivity|exfalso; apply n, Rdiv_lt_0_compat; lra].
Qed.

Lemma ktb_upd0 a b h w : 0 < a -> 0 < b -> ktb_update [a; b] 0 h w = Ok ([a + w; b], ln (a / (a + b))).
Proof.
  intros Ha Hb. unfold ktb_update. rewrite ktb_pred0 by assumption. cbn [bind]. rewrite py_get2_0. cbn [bind].
  rewrite py_set2_0. reflexivity.
Qed.

(** After update(0, weight=2), KTBinary predicts 0 with 5/6; inside Factored it predicts 3/4. *)
Lemma fac_weight_refuted : exists k k1 l1 p1 s2 l2 p2,
  m_update KTB_model k 0 [] 2 = Ok (k1, l1) /\ m_logp KTB_model k1 0 [] = Ok p1 /\ exp p1 = 5 / 6 /\
  fac_update KTB_model [k] 0 [] 2 = Ok (s2, l2) /\ fac_log_predict KTB_model s2 0 [] = Ok p2 /\ exp p2 = 3 / 4.
Proof.
  exists ktb_init, [/ 2 + 2; / 2]. eexists. eexists. exists [[/ 2 + 1; / 2]]. eexists. eexists.
  unfold ktb_init. cbn [KTB_model m_update m_logp fac_update fac_log_predict fac_index length Nat.modulo Nat.divmod nth_error bind snd Nat.sub].
  rewrite !ktb_upd0, !ktb_pred0 by lra. cbn [bind list_set].
  split; [reflexivity|]. split; [reflexivity|]. split; [rewrite exp_ln by (apply Rdiv_lt_0_compat; lra); field|].
  split; [reflexivity|]. split; [reflexivity|]. rewrite exp_ln by (apply Rdiv_lt_0_compat; lra); field.
Qed.

Lemma update_seq_history_refuted : exists hist s hist' l,
  update_seq KTB_model s [] hist 1 = Ok (s, hist', l) /\ hist' <> hist.
Proof. exists [0; 1]%Z, ktb_init, [], 0. split; [apply update_seq_empty|discriminate]. Qed.

Lemma log_predict_seq_history_refuted : exists hist s hist' l,
  log_predict_seq KTB_model s [] hist = Ok (hist', l) /\ hist' <> hist.
Proof. exists [0; 1]%Z, ktb_init, [], 0. split; [apply log_predict_seq_empty|discriminate]. Qed.

Lemma update_seq_total {S} (M : model S) A okh okw Inv : lawful M A okh okw Inv ->
  (forall h a, okh h -> In a A -> okh (h ++ [a])) -> forall n s hist w,
  Inv s -> okh hist -> okw w ->
  Rsum (map (fun seq => match update_seq M s seq hist w with Ok (_, _, l) => exp l | Err _ => 0 end)
            (words A n)) = 1.
Proof.
  intros HL Hext n s hist w Hs Hh Hw. rewrite <- (words_sum M A okh okw Inv HL Hext n s hist w Hs Hh Hw).
  f_equal. apply map_ext. intros seq.
  assert (E : update_seq M s seq hist w = do (s', l) <- run M s (events_from hist seq w); Ok (s', match seq with [] => [] | _ => hist end, l)).
  { destruct seq; [apply update_seq_empty|]. apply update_seq_spec. discriminate. }
  rewrite E. destruct (run M s (events_from hist seq w)) as [[s' l]|e] eqn:Er; cbn [bind].
  - symmetry. eapply seq_prob_run. exact Er.
  - clear E Hs. revert s e Er. clear. generalize (events_from hist seq w). intros evs. induction evs as [|e0 evs IH]; intros s e Er; [discriminate|].
    cbn [run seq_prob] in *. destruct (m_update M s (ev_sym e0) (ev_hist e0) (ev_wt e0)) as [[s1 l1]|e1]; [|reflexivity].
    cbn [bind] in Er. destruct (run M s1 evs) as [[s2 l2]|e2] eqn:E2; [discriminate|].
    rewrite <- (IH s1 e2 E2). ring.
Qed.

(** Factored((Dumb(), m)): the total is what m alone gives to the odd positions. *)
Lemma run_dumb {S2} (M2 : model S2) evs : run (either_model Dumb_model M2) (inl tt) evs = Ok (inl tt, 0).
Proof. induction evs as [|e evs IH]; [reflexivity|]. cbn [run either_model m_update Dumb_model bind]. cbn in IH. rewrite IH. cbn [bind]. rewrite Rplus_0_r. reflexivity. Qed.

Lemma run_inr {S1 S2} (M1 : model S1) (M2 : model S2) evs : forall s,
  run (either_model M1 M2) (inr s) evs = do (s', l) <- run M2 s evs; Ok (inr s', l).
Proof.
  induction evs as [|e evs IH]; intros s; [reflexivity|]. cbn [run]. unfold either_model at 1. cbn [m_update].
  destruct (m_update M2 s (ev_sym e) (ev_hist e) (ev_wt e)) as [[s1 l1]|er]; cbn [bind]; [|reflexivity].
  rewrite IH. destruct (run M2 s1 evs) as [[s2 l2]|er]; reflexivity.
Qed.

Lemma fac_dumb {S2} (M2 : model S2) m evs s' l :
  run (Factored_model (either_model Dumb_model M2)) [inl tt; inr m] evs = Ok (s', l) ->
  exists m', s' = [inl tt; inr m'] /\ run M2 m (routed 2 1 evs) = Ok (m', l).
Proof.
  intros H. apply fac_run in H; [|discriminate]. destruct H as (Hlen & ls & Hls & Hsum).
  destruct (Hls 0%nat (inl tt) eq_refl) as (d & Hd & Hrd). destruct (Hls 1%nat (inr m) eq_refl) as (m' & Hm' & Hrm).
  cbn [length] in *. rewrite run_dumb in Hrd. rewrite run_inr in Hrm.
  destruct (run M2 m (routed 2 1 evs)) as [[m2 l2]|e] eqn:E; cbn [bind] in Hrm; [|discriminate].
  injection Hrd as <- H0. injection Hrm as <- H1. exists m2. split.
  - destruct s' as [|x [|y [|z s']]]; try discriminate. cbn in Hd, Hm'. congruence.
  - do 2 f_equal. rewrite Hsum. cbn. rewrite <- H0, <- H1. unfold Rsum. cbn. lra.
Qed.
