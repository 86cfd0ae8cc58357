(** Factorized sends every call to the factor of its position. *)
From Coq Require Import Lra.
From Verif Require Import Model.CtwFactorize Spec.CtwFactorizeSpec.
From Verif Require Import Proofs.RealFacts Proofs.PyFacts Proofs.ProbFacts.
Open Scope R_scope.

Lemma set_nth_same {X} (l : list X) : forall i x, (i < length l)%nat -> nth_error (list_set l i x) i = Some x.
Proof. induction l as [|y l IH]; intros [|i] x H; cbn in *; try lia; [reflexivity|]. apply IH. lia. Qed.
Lemma set_nth_other {X} (l : list X) : forall i j x, i <> j -> nth_error (list_set l i x) j = nth_error l j.
Proof. induction l as [|y l IH]; intros [|i] [|j] x H; cbn; try reflexivity; try congruence. apply IH. congruence. Qed.
Lemma set_length {X} (l : list X) : forall i x, length (list_set l i x) = length l.
Proof. induction l as [|y l IH]; intros [|i] x; cbn; [reflexivity..|]. now rewrite IH. Qed.

Section facts.
  Context {S : Type}.
  Variable upd : S -> Z -> list Z -> R -> result (S * R).
  Variable prd : S -> Z -> list Z -> result (S * R).
  Variable n : nat.
  Hypothesis Hn : (0 < n)%nat.
  Notation N := (Z.of_nat n).
  Notation update := (fz_update upd N).
  Notation predict := (fz_log_predict prd N).
  Notation at_ h := (length h mod n)%nat.

  Lemma index_at (s : fobj (S := S)) : length (fo_models s) = n -> fz_index N s = Ok (at_ (fo_history s)).
  Proof.
    intros Hl. unfold fz_index. destruct (Z.eqb_spec N 0); [lia|]. unfold py_index. rewrite Hl.
    rewrite <- Nat2Z.inj_mod. pose proof (Nat.mod_upper_bound (length (fo_history s)) n ltac:(lia)).
    destruct (Z.ltb_spec (Z.of_nat (at_ (fo_history s))) 0); [lia|].
    destruct (Z.leb_spec 0 (Z.of_nat (at_ (fo_history s)))); [|lia]. destruct (Z.ltb_spec (Z.of_nat (at_ (fo_history s))) N); [|lia].
    cbn [andb]. now rewrite Nat2Z.id.
  Qed.

  Lemma factor_there (s : fobj (S := S)) : length (fo_models s) = n -> exists m, nth_error (fo_models s) (at_ (fo_history s)) = Some m.
  Proof.
    intros Hl. destruct (nth_error (fo_models s) (at_ (fo_history s))) as [m|] eqn:E; [eauto|].
    apply nth_error_None in E. pose proof (Nat.mod_upper_bound (length (fo_history s)) n ltac:(lia)). lia.
  Qed.

  (** One call. *)
  Definition full (s : fobj (S := S)) : Prop := length (fo_models s) = n /\ fo_update_history s = true.
  Definition the_op (h : list Z) (o : hop) : op := match o with HUpdate a w => OpUpdate a h w | HPredict a => OpPredict a h end.
  Definition grown (h : list Z) (o : hop) : list Z := match o with HUpdate a _ => h ++ [a] | HPredict _ => h end.
  Definition gained (o : hop) (r : R) : R := match o with HUpdate _ _ => r | HPredict _ => 0 end.

  Lemma one_call s o m : full s -> nth_error (fo_models s) (at_ (fo_history s)) = Some m ->
    do_hop update predict s o =
    do (m', r) <- do_op upd prd m (the_op (fo_history s) o);
    Ok (FObj (list_set (fo_models s) (at_ (fo_history s)) m') (grown (fo_history s) o) true (fo_log_prob s + gained o r), r).
  Proof.
    intros [Hl Hu] Hm. destruct o as [a w|a]; cbn [do_hop do_op the_op grown gained]; unfold fz_update, fz_log_predict;
      rewrite (index_at s Hl); cbn [bind]; rewrite Hm, Hu.
    - reflexivity.
    - destruct (prd m a (fo_history s)) as [[m' r]|]; cbn [bind]; [|reflexivity]. now rewrite Rplus_0_r.
  Qed.

  Lemma with_cons h o ops : with_history h (o :: ops) = the_op h o :: with_history (grown h o) ops.
  Proof. destruct o; reflexivity. Qed.

  Lemma my_cons i h o ops : my_ops n i (with_history h (o :: ops)) =
    if (at_ h =? i)%nat then the_op h o :: my_ops n i (with_history (grown h o) ops) else my_ops n i (with_history (grown h o) ops).
  Proof. rewrite with_cons. unfold my_ops. cbn [filter]. destruct o; reflexivity. Qed.

  Lemma mine_cons i h o ops r rs : mine n i (combine (with_history h (o :: ops)) (r :: rs)) =
    if (at_ h =? i)%nat then (the_op h o, r) :: mine n i (combine (with_history (grown h o) ops) rs) else mine n i (combine (with_history (grown h o) ops) rs).
  Proof. rewrite with_cons. cbn [combine]. unfold mine. cbn [filter fst]. destruct o; reflexivity. Qed.

  Lemma routes ops : forall s s' rs, full s -> hexec update predict s ops = Ok (s', rs) ->
    full s' /\ length rs = length ops /\ fo_history s' = fo_history s ++ updated ops /\
    fo_log_prob s' = fo_log_prob s + Rsum (update_values ops rs) /\
    forall i m, nth_error (fo_models s) i = Some m ->
      exists m', nth_error (fo_models s') i = Some m' /\
        exec upd prd m (map fst (mine n i (combine (with_history (fo_history s) ops) rs))) =
        Ok (m', map snd (mine n i (combine (with_history (fo_history s) ops) rs))).
  Proof.
    induction ops as [|o ops IH]; intros s s' rs Hf H; cbn [hexec] in H.
    - injection H as <- <-. split; [exact Hf|]. split; [reflexivity|]. split; [cbn; now rewrite app_nil_r|].
      split; [cbn [update_values]; rewrite Rsum_nil; lra|]. intros i m Hm. exists m. split; [exact Hm|reflexivity].
    - destruct (factor_there s (proj1 Hf)) as [mf Hmf]. rewrite (one_call s o mf Hf Hmf) in H.
      destruct (do_op upd prd mf (the_op (fo_history s) o)) as [[mf' r]|] eqn:Eo; cbn [bind] in H; [|discriminate].
      match type of H with context [hexec _ _ ?t ops] => set (s1 := t) in H end.
      destruct (hexec update predict s1 ops) as [[s2 rs']|] eqn:Ex; cbn [bind] in H; [|discriminate]. injection H as <- <-.
      assert (Hf1 : full s1) by (split; [cbn; rewrite set_length; apply Hf|reflexivity]).
      destruct (IH s1 s2 rs' Hf1 Ex) as (Hf2 & Hlen & Hh & Hlp & Hfac).
      split; [exact Hf2|]. split; [cbn; now rewrite Hlen|]. split; [|split].
      + rewrite Hh. unfold s1. cbn [fo_history]. destruct o; cbn [grown updated flat_map app]; [now rewrite <- app_assoc|reflexivity].
      + rewrite Hlp. unfold s1. cbn [fo_log_prob]. destruct o; cbn [gained update_values]; rewrite ?Rsum_cons; lra.
      + intros i m Hm. rewrite mine_cons. cbn [fo_history s1] in Hfac. destruct (Nat.eqb_spec (at_ (fo_history s)) i) as [<-|Hne].
        * assert (m = mf) by congruence. subst m.
          destruct (Hfac (at_ (fo_history s)) mf') as (m' & Hm' & Hex).
          { cbn [fo_models s1]. apply set_nth_same. rewrite (proj1 Hf). apply Nat.mod_upper_bound. lia. }
          exists m'. split; [exact Hm'|]. cbn [map fst snd exec]. rewrite Eo. cbn [bind]. change (fo_history s1) with (grown (fo_history s) o) in Hex.
          rewrite Hex. reflexivity.
        * destruct (Hfac i m) as (m' & Hm' & Hex).
          { cbn [fo_models s1]. now rewrite set_nth_other. }
          exists m'. split; [exact Hm'|exact Hex].
  Qed.

  (** It succeeds if every factor does. *)
  Lemma runs ops : forall s, full s ->
    (forall i m, nth_error (fo_models s) i = Some m -> exists x, exec upd prd m (my_ops n i (with_history (fo_history s) ops)) = Ok x) ->
    exists x, hexec update predict s ops = Ok x.
  Proof.
    induction ops as [|o ops IH]; intros s Hf H; [eexists; reflexivity|]. cbn [hexec].
    destruct (factor_there s (proj1 Hf)) as [mf Hmf]. rewrite (one_call s o mf Hf Hmf).
    destruct (H _ _ Hmf) as [x Hx]. rewrite my_cons, Nat.eqb_refl in Hx. cbn [exec] in Hx.
    destruct (do_op upd prd mf (the_op (fo_history s) o)) as [[mf' r]|] eqn:Eo; cbn [bind] in Hx |- *; [|discriminate].
    match goal with |- context [hexec _ _ ?t ops] => set (s1 := t) end.
    assert (Hf1 : full s1) by (split; [cbn; rewrite set_length; apply Hf|reflexivity]).
    destruct (IH s1 Hf1) as [[s2 rs] Hy].
    - intros i m Hm. cbn [fo_history s1]. destruct (Nat.eq_dec (at_ (fo_history s)) i) as [<-|Hne].
      + cbn [fo_models s1] in Hm. rewrite set_nth_same in Hm by (rewrite (proj1 Hf); apply Nat.mod_upper_bound; lia).
        injection Hm as <-. destruct (exec upd prd mf' (my_ops n (at_ (fo_history s)) (with_history (grown (fo_history s) o) ops))) as [y|] eqn:Ey; [eauto|discriminate].
      + cbn [fo_models s1] in Hm. rewrite set_nth_other in Hm by exact Hne. destruct (H i m Hm) as [y Hy]. rewrite my_cons in Hy.
        destruct (Nat.eqb_spec (at_ (fo_history s)) i); [contradiction|]. eauto.
    - rewrite Hy. cbn [bind]. eauto.
  Qed.

  (** ** log_predict_seq *)
  Lemma predict_keeps s a s' l : predict s a = Ok (s', l) ->
    fo_history s' = fo_history s /\ fo_update_history s' = fo_update_history s /\ fo_log_prob s' = fo_log_prob s /\ length (fo_models s') = length (fo_models s).
  Proof.
    unfold fz_log_predict. destruct (fz_index N s) as [i|]; cbn [bind]; [|discriminate]. destruct (nth_error (fo_models s) i) as [m|]; [|discriminate].
    destruct (prd m a (fo_history s)) as [[m' r]|]; cbn [bind]; [|discriminate]. intros H. injection H as <- <-. cbn. now rewrite set_length.
  Qed.

  Lemma empty_seq (s : fobj (S := S)) : fz_log_predict_seq prd N s [] = (FObj (fo_models s) [] (fo_update_history s) (fo_log_prob s), Ok 0).
  Proof.
    unfold fz_log_predict_seq. cbn [fz_predict_loop]. unfold slice_start. cbn [Z.opp Z.ltb Z.compare]. rewrite Z.min_l by lia. reflexivity.
  Qed.

  Lemma predict_loop seq : forall s rv k s' r, fz_predict_loop prd N s seq rv k = (s', r) ->
    fo_update_history s' = fo_update_history s /\ fo_log_prob s' = fo_log_prob s /\
    match r with
    | Ok (_, k') => k' = (k + Z.of_nat (length seq))%Z /\ fo_history s' = fo_history s ++ seq
    | Err e => exists j x, nth_error seq j = Some x /\ fo_history s' = fo_history s ++ firstn j seq /\ predict s' x = Err e
    end.
  Proof.
    induction seq as [|x seq IH]; intros s rv k s' r H; cbn [fz_predict_loop] in H.
    - injection H as <- <-. cbn. rewrite app_nil_r. repeat split; lia.
    - destruct (predict s x) as [[s1 l]|e] eqn:E.
      + destruct (predict_keeps _ _ _ _ E) as (Hh & Hu & Hl & _). specialize (IH _ _ _ _ _ H). destruct IH as (IH1 & IH2 & IH3).
        split; [rewrite IH1; exact Hu|]. split; [rewrite IH2; exact Hl|]. cbn [fo_history fz_with_history] in IH3. rewrite Hh in IH3.
        destruct r as [[v k']|e].
        * destruct IH3 as [-> ->]. cbn [length]. split; [lia|]. now rewrite <- app_assoc.
        * destruct IH3 as (j & y & Hj & -> & He). exists (Datatypes.S j), y. cbn [nth_error firstn]. split; [exact Hj|]. split; [now rewrite <- app_assoc|exact He].
      + injection H as <- <-. repeat split; try reflexivity. exists 0%nat, x. cbn. split; [reflexivity|]. split; [now rewrite app_nil_r|exact E].
  Qed.

  Lemma rollback_ok (h seq : list Z) : seq <> [] -> firstn (slice_start (h ++ seq) (- Z.of_nat (length seq))) (h ++ seq) = h.
  Proof.
    intros Hs. assert (0 < length seq)%nat by (destruct seq; [congruence|cbn; lia]).
    replace (slice_start (h ++ seq) (- Z.of_nat (length seq))) with (length h).
    - rewrite firstn_app, Nat.sub_diag, firstn_all. cbn. apply app_nil_r.
    - unfold slice_start. rewrite app_length. destruct (Z.ltb_spec (- Z.of_nat (length seq)) 0); [|lia]. lia.
  Qed.

  Lemma predict_seq_state s seq s' r : seq <> [] -> fz_log_predict_seq prd N s seq = (s', r) ->
    fo_update_history s' = fo_update_history s /\ fo_log_prob s' = fo_log_prob s /\
    match r with
    | Ok _ => fo_history s' = fo_history s
    | Err e => exists j x, nth_error seq j = Some x /\ fo_history s' = fo_history s ++ firstn j seq /\ predict s' x = Err e
    end.
  Proof.
    intros Hs H. unfold fz_log_predict_seq in H. destruct (fz_predict_loop prd N s seq 0 0) as [s1 r1] eqn:E.
    destruct (predict_loop _ _ _ _ _ _ E) as (H1 & H2 & H3). destruct r1 as [[v k]|e].
    - injection H as <- <-. cbn [fo_update_history fo_log_prob fo_history fz_with_history]. split; [exact H1|]. split; [exact H2|].
      destruct H3 as [-> ->]. now rewrite Z.add_0_l, rollback_ok.
    - injection H as <- <-. split; [exact H1|]. split; [exact H2|exact H3].
  Qed.

  (** The value: the sum of the predictions in the growing history. *)
  Lemma predict_seq_value seq : forall s rv k s' v k', length (fo_models s) = n -> fz_predict_loop prd N s seq rv k = (s', Ok (v, k')) ->
    exists rs, length rs = length seq /\ v = rv + Rsum rs /\ length (fo_models s') = n /\
      forall i m, nth_error (fo_models s) i = Some m -> exists m', nth_error (fo_models s') i = Some m' /\
        exec upd prd m (map fst (mine n i (combine (predict_ops (fo_history s) seq) rs))) =
        Ok (m', map snd (mine n i (combine (predict_ops (fo_history s) seq) rs))).
  Proof.
    induction seq as [|x seq IH]; intros s rv k s' v k' Hl H; cbn [fz_predict_loop] in H.
    - injection H as <- <- _. exists []. split; [reflexivity|]. split; [rewrite Rsum_nil; lra|]. split; [exact Hl|].
      intros i m Hm. exists m. split; [exact Hm|reflexivity].
    - destruct (factor_there s Hl) as [mf Hmf]. destruct (predict s x) as [[s1 l]|e] eqn:E; [|discriminate].
      unfold fz_log_predict in E. rewrite (index_at s Hl) in E. cbn [bind] in E. rewrite Hmf in E.
      destruct (prd mf x (fo_history s)) as [[mf' r]|] eqn:Ep; cbn [bind] in E; [|discriminate]. injection E as <- <-.
      cbn [fo_history fz_with_history fo_models fo_update_history fo_log_prob] in H.
      match type of H with fz_predict_loop _ _ ?t _ _ _ = _ => set (s2 := t) in H end.
      assert (Hl2 : length (fo_models s2) = n) by (cbn; now rewrite set_length).
      destruct (IH s2 _ _ _ _ _ Hl2 H) as (rs & Hlen & -> & Hl3 & Hfac). exists (r :: rs).
      split; [cbn; now rewrite Hlen|]. split; [rewrite Rsum_cons; lra|]. split; [exact Hl3|]. intros i m Hm.
      cbn [predict_ops combine]. unfold mine. cbn [filter fst op_history]. destruct (Nat.eqb_spec (at_ (fo_history s)) i) as [<-|Hne].
      + assert (m = mf) by congruence. subst m. destruct (Hfac (at_ (fo_history s)) mf') as (m' & Hm' & Hex).
        { cbn [fo_models s2]. apply set_nth_same. rewrite Hl. apply Nat.mod_upper_bound. lia. }
        exists m'. split; [exact Hm'|]. cbn [map fst snd exec do_op]. rewrite Ep. cbn [bind]. change (fo_history s2) with (fo_history s ++ [x]) in Hex. unfold mine in Hex. rewrite Hex. reflexivity.
      + destruct (Hfac i m) as (m' & Hm' & Hex).
        { etransitivity; [exact (set_nth_other _ _ _ _ Hne)|exact Hm]. }
        exists m'. split; [exact Hm'|exact Hex].
  Qed.
End facts.
