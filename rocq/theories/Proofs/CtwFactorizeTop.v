(** The statements about Factorized, and Factorized over CTW. *)
From Coq Require Import Lra.
From Verif Require Import Model.CtwFactorize Spec.CtwFactorizeSpec Spec.CTWSpec.
From Verif Require Import Proofs.RealFacts Proofs.PyFacts Proofs.ProbFacts Proofs.CTWFacts Proofs.CTWTop Proofs.CTWProps Proofs.CtwCTWFacts Proofs.CtwCTWTop Proofs.CtwFactorizeFacts.
Open Scope R_scope.

Section generic.
  Context {S : Type}.
  Variable upd : S -> Z -> list Z -> R -> result (S * R).
  Variable prd : S -> Z -> list Z -> result (S * R).
  Variable fresh : S.
  Variable n : nat.
  Hypothesis Hn : (0 < n)%nat.
  Notation N := (Z.of_nat n).
  Notation update := (fz_update upd N).
  Notation predict := (fz_log_predict prd N).
  Notation init := (fz_init fresh N).

  Lemma full_init : full n init.
  Proof. split; [|reflexivity]. cbn. rewrite Nat2Z.id. apply repeat_length. Qed.

  Lemma init_nth i m : nth_error (fo_models init) i = Some m -> m = fresh.
  Proof. intros H. cbn in H. apply nth_error_In in H. now apply repeat_spec in H. Qed.
  Lemma init_there i : (i < n)%nat -> nth_error (fo_models init) i = Some fresh.
  Proof.
    intros Hi. destruct (nth_error (fo_models init) i) as [m|] eqn:E; [now rewrite (init_nth _ _ E)|].
    apply nth_error_None in E. cbn in E. rewrite Nat2Z.id, repeat_length in E. lia.
  Qed.

  Lemma fz_routes ops s rs : hexec update predict init ops = Ok (s, rs) ->
    length rs = length ops /\ fo_history s = updated ops /\ fo_log_prob s = Rsum (update_values ops rs) /\ length (fo_models s) = n /\
    forall i, (i < n)%nat -> exists m, nth_error (fo_models s) i = Some m /\
      exec upd prd fresh (map fst (mine n i (combine (with_history [] ops) rs))) =
      Ok (m, map snd (mine n i (combine (with_history [] ops) rs))).
  Proof.
    intros H. destruct (routes upd prd n Hn ops _ _ _ full_init H) as ([Hl _] & H1 & H2 & H3 & H4).
    split; [exact H1|]. split; [exact H2|]. split; [rewrite H3; cbn; lra|]. split; [exact Hl|].
    intros i Hi. apply (H4 i fresh (init_there i Hi)).
  Qed.

  Lemma fz_runs ops : (forall i, (i < n)%nat -> exists x, exec upd prd fresh (my_ops n i (with_history [] ops)) = Ok x) ->
    exists s rs, hexec update predict init ops = Ok (s, rs).
  Proof.
    intros H. destruct (runs upd prd n Hn ops _ full_init) as [[s rs] E]; [|eauto].
    intros i m Hm. pose proof (init_nth _ _ Hm) as ->. apply H.
    assert (i < length (fo_models init))%nat by (apply nth_error_Some; congruence). now rewrite (proj1 full_init) in H0.
  Qed.

  (** update_seq *)
  Lemma fz_update_lp s a w s' r : update s a w = Ok (s', r) -> fo_log_prob s' = fo_log_prob s + r.
  Proof.
    unfold fz_update. destruct (fz_index N s) as [i|]; cbn [bind]; [|discriminate]. destruct (nth_error (fo_models s) i) as [m|]; [|discriminate].
    destruct (upd m a (fo_history s) w) as [[m' v]|]; cbn [bind]; [|discriminate]. intros H. injection H as <- <-. reflexivity.
  Qed.

  Lemma fz_loop seq w : forall s,
    fz_update_loop upd N s seq w = do (s', _) <- hexec update predict s (map (fun a => HUpdate a w) seq); Ok s'.
  Proof.
    induction seq as [|a seq IH]; intros s; [reflexivity|]. cbn [fz_update_loop map hexec do_hop].
    destruct (update s a w) as [[s1 r]|]; cbn [bind]; [|reflexivity]. rewrite IH. destruct (hexec update predict s1 _) as [[s2 rs]|]; reflexivity.
  Qed.

  Lemma fz_seq_lp seq w : forall s s' rs, hexec update predict s (map (fun a => HUpdate a w) seq) = Ok (s', rs) ->
    fo_log_prob s' - fo_log_prob s = Rsum rs.
  Proof.
    induction seq as [|a seq IH]; intros s s' rs H; cbn [map hexec do_hop] in H.
    - injection H as <- <-. rewrite Rsum_nil. lra.
    - destruct (update s a w) as [[s1 r]|] eqn:E; cbn [bind] in H; [|discriminate].
      destruct (hexec update predict s1 _) as [[s2 rs']|] eqn:E2; cbn [bind] in H; [|discriminate]. injection H as <- <-.
      rewrite Rsum_cons. pose proof (IH _ _ _ E2). pose proof (fz_update_lp _ _ _ _ _ E). lra.
  Qed.

  Lemma fz_update_seq_sum s seq w :
    fz_update_seq upd N s seq w = do (s', rs) <- hexec update predict s (map (fun a => HUpdate a w) seq); Ok (s', Rsum rs).
  Proof.
    unfold fz_update_seq. rewrite fz_loop. destruct (hexec update predict s _) as [[s' rs]|] eqn:E; cbn [bind]; [|reflexivity].
    now rewrite (fz_seq_lp _ _ _ _ _ E).
  Qed.

  (** log_predict_seq *)
  Lemma fz_predict_seq ops s rs0 seq s' l : hexec update predict init ops = Ok (s, rs0) -> seq <> [] ->
    fz_log_predict_seq prd N s seq = (s', Ok l) ->
    fo_history s' = fo_history s /\ fo_update_history s' = true /\ fo_log_prob s' = fo_log_prob s /\
    exists rs, length rs = length seq /\ l = Rsum rs /\
      forall i, (i < n)%nat -> exists m m', nth_error (fo_models s) i = Some m /\ nth_error (fo_models s') i = Some m' /\
        exec upd prd m (map fst (mine n i (combine (predict_ops (updated ops) seq) rs))) =
        Ok (m', map snd (mine n i (combine (predict_ops (updated ops) seq) rs))).
  Proof.
    intros H Hs Hp. destruct (routes upd prd n Hn ops _ _ _ full_init H) as ([Hl Hu] & _ & H2 & _ & _). cbn in H2.
    destruct (predict_seq_state upd prd n Hn s seq s' (Ok l) Hs Hp) as (P1 & P2 & P3).
    split; [exact P3|]. split; [now rewrite P1|]. split; [exact P2|].
    unfold fz_log_predict_seq in Hp. destruct (fz_predict_loop prd N s seq 0 0) as [s1 r1] eqn:E. destruct r1 as [[v k]|]; [|discriminate].
    injection Hp as <- <-. destruct (predict_seq_value upd prd n Hn seq s 0 0 s1 v k Hl E) as (rs & L1 & -> & L3 & L4).
    exists rs. split; [exact L1|]. split; [lra|]. intros i Hi.
    destruct (nth_error (fo_models s) i) as [m|] eqn:Em; [|apply nth_error_None in Em; lia].
    destruct (L4 i m Em) as (m' & Hm' & Hex). rewrite H2 in Hex. exists m, m'. auto.
  Qed.

  Lemma fz_predict_failed s seq s' e : seq <> [] -> fz_log_predict_seq prd N s seq = (s', Err e) ->
    exists j x, nth_error seq j = Some x /\ fo_history s' = fo_history s ++ firstn j seq /\ predict s' x = Err e.
  Proof. intros Hs Hp. destruct (predict_seq_state upd prd n Hn s seq s' (Err e) Hs Hp) as (_ & _ & P3). exact P3. Qed.
End generic.

Lemma fz_failed S (prd : S -> Z -> list Z -> result (S * R)) n : (0 < n)%nat -> forall s seq s' e,
  seq <> [] -> fz_log_predict_seq prd (Z.of_nat n) s seq = (s', Err e) ->
  exists j x, nth_error seq j = Some x /\ fo_history s' = fo_history s ++ firstn j seq /\ fz_log_predict prd (Z.of_nat n) s' x = Err e.
Proof. exact (fz_predict_failed (fun s _ _ _ => Ok (s, 0)) prd n). Qed.

Lemma fz_not_the_class S (fresh : S) nfactors : call0 fresh nfactors factorize = Err TypeError.
Proof. reflexivity. Qed.

Lemma fz_empty S (prd : S -> Z -> list Z -> result (S * R)) nfactors s :
  fz_log_predict_seq prd nfactors s [] = (FObj (fo_models s) [] (fo_update_history s) (fo_log_prob s), Ok 0).
Proof.
  unfold fz_log_predict_seq. cbn [fz_predict_loop]. unfold slice_start. cbn [Z.opp Z.ltb Z.compare]. rewrite Z.min_l by lia. reflexivity.
Qed.

(** Two factors that are ctw.KT; 5 is not in the alphabet. *)
Lemma fz_left_over : exists s', fz_log_predict_seq (fun s a h => do r <- qkt_log_predict s a h; Ok (s, r)) 2 (fz_init (qkt_init [0; 1]%Z) 2) [0; 5]%Z =
  (s', Err KeyError) /\ fo_history s' = [0]%Z.
Proof.
  assert (E : qkt_log_predict (qkt_init [0; 1]%Z) 0 [] = Ok (ln (/ 2) - ln 1)).
  { unfold qkt_log_predict. cbn. unfold py_log. replace (1 / (1 + 1)) with (/ 2) by lra.
    destruct (Rlt_dec 0 (/ 2)); [|lra]. cbn [bind]. replace (0 + / 2 + / 2) with 1 by lra. destruct (Rlt_dec 0 1); [reflexivity|lra]. }
  assert (E5 : qkt_log_predict (qkt_init [0; 1]%Z) 5 [0]%Z = Err KeyError) by reflexivity.
  set (p := fun s a h => do r <- qkt_log_predict s a h; Ok (s, r)).
  assert (P0 : p (qkt_init [0; 1]%Z) 0%Z [] = Ok (qkt_init [0; 1]%Z, ln (/ 2) - ln 1)) by (unfold p; now rewrite E).
  assert (P5 : p (qkt_init [0; 1]%Z) 5%Z [0]%Z = Err KeyError) by (unfold p; now rewrite E5).
  clearbody p. clear E E5. revert P0 P5. generalize (qkt_init [0; 1]%Z) as k. intros k P0 P5.
  change (fz_init k 2) with (FObj [k; k] [] true 0).
  unfold fz_log_predict_seq. cbn. rewrite P0. cbn. change (Pos.to_nat 1) with 1%nat. cbn. rewrite P5. eexists. split; reflexivity.
Qed.

Lemma fz_no_factors S upd prd fresh a w : fz_update upd 0 (fz_init (S := S) fresh 0) a w = Err ZeroDivisionError /\
  fz_log_predict prd 0 (fz_init (S := S) fresh 0) a = Err ZeroDivisionError.
Proof. split; reflexivity. Qed.

(** ** Sums over the factors *)
Lemma parts_sum {X} (n : nat) (pos : X -> nat) (val : X -> R) l : (0 < n)%nat ->
  Rsum (map val l) = Rsum (map (fun i => Rsum (map val (filter (fun x => (pos x mod n =? i)%nat) l))) (seq 0 n)).
Proof.
  intros Hn. induction l as [|x l IH].
  - cbn [map filter]. rewrite Rsum_nil. induction (seq 0 n) as [|j js IHj]; cbn [map]; rewrite ?Rsum_cons, ?Rsum_nil; [reflexivity|]. lra.
  - cbn [map]. rewrite Rsum_cons, IH. pose proof (Nat.mod_upper_bound (pos x) n ltac:(lia)) as Hi.
    assert (Hin : In (pos x mod n)%nat (seq 0 n)) by (apply in_seq; lia). revert Hin. pose proof (seq_NoDup n 0) as Hnd. revert Hnd.
    generalize (seq 0 n) as js. clear Hi.
    assert (Hno : forall js, ~ In (pos x mod n)%nat js ->
      Rsum (map (fun i => Rsum (map val (filter (fun x0 => (pos x0 mod n =? i)%nat) (x :: l)))) js) =
      Rsum (map (fun i => Rsum (map val (filter (fun x0 => (pos x0 mod n =? i)%nat) l))) js)).
    { intros js Hj. apply Rsum_map_ext. intros i Hi. cbn [filter]. destruct (Nat.eqb_spec (pos x mod n) i) as [<-|]; [contradiction|reflexivity]. }
    induction js as [|j js IHj]; intros Hnd Hin; [destruct Hin|]. inversion Hnd as [|y z Hj Hjs]; subst. cbn [map]. rewrite !Rsum_cons.
    destruct (Nat.eq_dec (pos x mod n) j) as [<-|Hne].
    + rewrite (Hno js Hj). cbn [filter]. rewrite Nat.eqb_refl. cbn [map]. rewrite Rsum_cons. lra.
    + destruct Hin as [Hin|Hin]; [congruence|]. rewrite <- (IHj Hjs Hin). cbn [filter].
      destruct (Nat.eqb_spec (pos x mod n) j); [contradiction|]. lra.
Qed.

Lemma exp_Rsum l : exp (Rsum l) = Rprod (map exp l).
Proof. induction l as [|x l IH]; cbn [map]; rewrite ?Rsum_nil, ?Rprod_nil, ?Rsum_cons, ?Rprod_cons; [apply exp_0|]. now rewrite exp_plus, IH. Qed.

Section ctw.
  Context {S : Type} (Q : probseq S).
  Notation M := (without_history (q_model Q)).
  Hypothesis Hlaw : forall s a h w s' l, m_update (q_model Q) s a h w = Ok (s', l) -> q_lp Q s' = q_lp Q s + l.
  Variable fresh : S.
  Hypothesis Hf0 : q_lp Q fresh = 0.
  Variable D n : nat.
  Hypothesis HD : (0 < D)%nat.
  Hypothesis Hn : (0 < n)%nat.
  Notation N := (Z.of_nat n).
  Notation upd := (ctw_factor_update Q fresh (mkcontext (Z.of_nat D))).
  Notation prd := (ctw_factor_predict Q fresh (mkcontext (Z.of_nat D))).
  Notation base := (qobj_init fresh (Z.of_nat D)).
  Notation update := (fz_update upd N).
  Notation predict := (fz_log_predict prd N).
  Notation init := (fz_init base N).

  Lemma exec_ext ops : forall s, exec upd prd s ops =
    ext_exec (fun s h => use_history s h false) (qobj_update Q fresh (mkcontext (Z.of_nat D))) (qobj_log_predict Q fresh (mkcontext (Z.of_nat D))) s ops.
  Proof.
    induction ops as [|o ops IH]; intros s; [reflexivity|]. cbn [exec ext_exec].
    destruct o as [a h w|a h]; cbn [do_op ext_op]; unfold ctw_factor_update, ctw_factor_predict.
    - destruct (qobj_update Q fresh _ (use_history s h false) a w) as [[s1 r]|]; cbn [bind]; [|reflexivity]. now rewrite IH.
    - destruct (qobj_log_predict Q fresh _ (use_history s h false) a) as [[s1 r]|]; cbn [bind]; [|reflexivity]. now rewrite IH.
  Qed.

  Notation mexec := (exec (ctw_update M fresh false) (ctw_log_predict M fresh false) (ctw_init fresh (Z.of_nat D))).
  Lemma factor_same ops : shown (exec upd prd base ops) = shown (mexec ops).
  Proof. rewrite exec_ext. apply (external_same Q Hlaw fresh Hf0 D ops HD). Qed.

  Context (A : list Z) (okw : R -> Prop) (Inv : S -> Prop) (K : list Z).
  Notation bare := (fun h : list Z => h = []).
  Hypothesis HS : steps (q_model Q) A bare okw Inv.
  Hypothesis Hfresh : Inv fresh.
  Hypothesis HK : NoDup K.
  Hypothesis HK0 : In 0%Z K.
  Hypothesis HKA : incl A K.
  Hypothesis Hw1 : okw 1.
  Notation inK := (fun h : list Z => incl h K).
  Notation HM := (steps_nh Q A okw Inv K HS).
  Notation CM := (CTW_model M fresh false).

  Definition ok_fop (o : op) : Prop :=
    match o with OpUpdate a h w => In a A /\ incl h K /\ okw w | OpPredict a h => In a A /\ incl h K end.

  Lemma factor_runs ops : Forall ok_fop ops -> exists s rs, exec upd prd base ops = Ok (s, rs) /\ shown (mexec ops) = Ok rs.
  Proof.
    intros Hok. assert (NB : false = true -> incl K [0; 1]%Z) by discriminate.
    destruct (ctw_exec_ok M fresh false A inK okw Inv K D HM Hfresh HK HK0 NB HD ops Hw1) as (c & rs & E).
    { eapply Forall_impl; [|exact Hok]. intros [a h w|a h]; cbn; tauto. }
    pose proof (factor_same ops) as G. rewrite E in G. cbn [shown bind] in G. unfold shown in G.
    destruct (exec upd prd base ops) as [[s rs']|] eqn:E1; cbn [bind] in G; [|discriminate]. injection G as ->.
    exists s, rs. split; [reflexivity|]. rewrite E. reflexivity.
  Qed.

  Lemma with_ok ops : forall h, incl h K -> Forall (ok_hop A okw) ops -> Forall ok_fop (with_history h ops).
  Proof.
    induction ops as [|o ops IH]; intros h Hh Hok; [constructor|]. inversion Hok as [|x y Ho Hok']; subst.
    destruct o as [a w|a]; cbn [with_history ok_hop] in *; constructor; cbn; try tauto; apply IH; try assumption.
    apply incl_app; [exact Hh|]. intros x [<-|[]]. apply HKA, Ho.
  Qed.
  Lemma mine_ok i ops : Forall ok_fop ops -> Forall ok_fop (my_ops n i ops).
  Proof. intros H. apply Forall_forall. intros o Ho. apply filter_In in Ho. rewrite Forall_forall in H. apply H, Ho. Qed.

  Lemma ctw_hexec ops : Forall (ok_hop A okw) ops -> exists s rs, hexec update predict init ops = Ok (s, rs).
  Proof.
    intros Hok. apply (fz_runs upd prd base n Hn). intros i Hi.
    destruct (factor_runs (my_ops n i (with_history [] ops))) as (s & rs & E & _); [|eauto].
    apply mine_ok, with_ok; [intros x []|exact Hok].
  Qed.

  (** Updates of model.py's CTW one by one are its run. *)
  Lemma exec_run {T} (X : model T) prd' evs : forall s,
    (do (s', rs) <- exec (m_update X) prd' s (map (fun e => OpUpdate (ev_sym e) (ev_hist e) (ev_wt e)) evs); Ok (s', Rsum rs)) = run X s evs.
  Proof.
    induction evs as [|e evs IH]; intros s; [reflexivity|]. cbn [map exec do_op run].
    destruct (m_update X s _ _ _) as [[s1 r]|]; cbn [bind]; [|reflexivity]. rewrite <- IH.
    destruct (exec _ prd' s1 _) as [[s2 rs]|]; cbn [bind]; [|reflexivity]. now rewrite Rsum_cons.
  Qed.

  Lemma with_updates sw : forall h, with_history h (updates sw) = map (fun e => OpUpdate (ev_sym e) (ev_hist e) (ev_wt e)) (events_after h sw).
  Proof. induction sw as [|[a w] sw IH]; intros h; [reflexivity|]. cbn [updates map with_history events_after fst snd ev_sym ev_hist ev_wt]. f_equal. apply IH. Qed.

  Lemma my_updates i evs : my_ops n i (map (fun e => OpUpdate (ev_sym e) (ev_hist e) (ev_wt e)) evs) =
    map (fun e => OpUpdate (ev_sym e) (ev_hist e) (ev_wt e)) (my_events n i evs).
  Proof. unfold my_ops, my_events. induction evs as [|e evs IH]; [reflexivity|]. cbn [map filter op_history]. destruct (_ =? _)%nat; cbn [map]; now rewrite IH. Qed.

  Lemma mine_fst i : forall ops (rs : list R), length rs = length ops -> map fst (mine n i (combine ops rs)) = my_ops n i ops.
  Proof.
    induction ops as [|o ops IH]; intros [|r rs] H; try discriminate; [reflexivity|]. cbn in H.
    specialize (IH rs ltac:(lia)). unfold mine, my_ops in *. cbn [combine filter fst].
    destruct (_ =? _)%nat; cbn [map fst]; now rewrite IH.
  Qed.

  Lemma updates_updated sw : updated (updates sw) = map fst sw.
  Proof. induction sw as [|[a w] sw IH]; [reflexivity|]. cbn. now f_equal. Qed.
  Lemma updates_values sw : forall rs, length rs = length (updates sw) -> update_values (updates sw) rs = rs.
  Proof. induction sw as [|[a w] sw IH]; intros [|r rs] H; try discriminate; [reflexivity|]. injection H as H. cbn. f_equal. apply IH. exact H. Qed.
  Lemma with_length ops : forall h, length (with_history h ops) = length ops.
  Proof. induction ops as [|[a w|a] ops IH]; intros h; cbn; [reflexivity| |]; now rewrite IH. Qed.
  Lemma events_ok sw : forall h, incl h K -> Forall (fun p => In (fst p) A /\ okw (snd p)) sw ->
    Forall (fun e => ok_event A inK okw e /\ incl (ev_hist e) K) (events_after h sw).
  Proof.
    induction sw as [|[a w] sw IH]; intros h Hh Hok; [constructor|]. inversion Hok as [|x y [Ha Hw] Hok']; subst. cbn [events_after fst snd] in *.
    constructor; [repeat split; cbn; auto|]. apply IH; [|exact Hok']. apply incl_app; [exact Hh|]. intros x [<-|[]]. apply HKA, Ha.
  Qed.
  Lemma updates_ok sw : Forall (fun p => In (fst p) A /\ okw (snd p)) sw -> Forall (ok_hop A okw) (updates sw).
  Proof. intros H. apply Forall_map. eapply Forall_impl; [|exact H]. intros [a w]; cbn; tauto. Qed.

  (** The probability is the product over the factors of the CTW probability of their symbols. *)
  Lemma fz_ctw sw : Forall (fun p => In (fst p) A /\ okw (snd p)) sw ->
    exists s rs, hexec update predict init (updates sw) = Ok (s, rs) /\ fo_history s = map fst sw /\ fo_log_prob s = Rsum rs /\
      exp (Rsum rs) = Rprod (map (fun i => ctw_prob M fresh (recent D) K D [] (my_events n i (events_after [] sw))) (seq 0 n)).
  Proof.
    intros Hok. assert (NB : false = true -> incl K [0; 1]%Z) by discriminate.
    destruct (ctw_hexec _ (updates_ok sw Hok)) as (s & rs & E). exists s, rs. split; [exact E|].
    destruct (fz_routes upd prd base n Hn _ _ _ E) as (Hl & Hh & Hlp & _ & Hfac).
    split; [rewrite Hh; apply updates_updated|]. split; [rewrite Hlp; now rewrite updates_values by exact Hl|].
    assert (Hc : Rsum rs = Rsum (map snd (combine (with_history [] (updates sw)) rs))).
    { f_equal. rewrite <- (with_length (updates sw) []) in Hl. clear -Hl. revert rs Hl. induction (with_history [] (updates sw)) as [|o l IH]; intros [|r rs] H; try discriminate; [reflexivity|].
      cbn in *. f_equal. apply IH. lia. }
    rewrite Hc, (parts_sum n (fun p => length (op_history (fst p))) snd _ Hn), exp_Rsum, map_map. f_equal. apply map_ext_in.
    intros i Hi. apply in_seq in Hi. destruct (Hfac i ltac:(lia)) as (m & _ & Hex).
    rewrite mine_fst in Hex by (rewrite with_length; exact Hl). rewrite with_updates, my_updates in Hex.
    assert (Hev : Forall (fun e => ok_event A inK okw e /\ incl (ev_hist e) K) (my_events n i (events_after [] sw))).
    { apply Forall_forall. intros e He. apply filter_In in He. pose proof (events_ok sw [] (fun x (H : In x []) => match H with end) Hok) as G.
      rewrite Forall_forall in G. apply G, He. }
    destruct (ctw_recursion M fresh false A inK okw Inv K D HM Hfresh HK HK0 NB HD _ Hev) as (c & l & Hrun & _ & Hp).
    rewrite <- Hp. rewrite <- (exec_run CM (ctw_log_predict M fresh false)) in Hrun.
    pose proof (factor_same (map (fun e => OpUpdate (ev_sym e) (ev_hist e) (ev_wt e)) (my_events n i (events_after [] sw)))) as G.
    rewrite Hex in G. cbn [shown bind] in G. cbn [CTW_model m_update] in Hrun. unfold shown in G.
    destruct (mexec _) as [[c2 r2]|] in Hrun, G; cbn [bind] in Hrun, G; [|discriminate].
    injection G as G. injection Hrun as _ Hrun. rewrite <- Hrun, <- G, with_updates. reflexivity.
  Qed.

  (** After any calls, log_predict says what update returns, and the predictions sum to one. *)
  Notation ctxD := (fun h => rev (recent D h)).
  Notation rep := (ctw_rep M fresh A inK okw K ctxD D).
  Definition freached (m : qobj (S := S)) : Prop := exists c evs, csim Q D (qo_root m) (ctw_tree c) /\ rep evs c.

  Lemma freached_init : freached base.
  Proof. exists (ctw_init fresh (Z.of_nat D)), []. split; [apply (csim_new Q fresh Hf0 D)|apply ctw_rep_init]. Qed.

  Lemma freached_step m a h w : freached m -> In a A -> incl h K -> okw w ->
    exists m' m'' l, upd m a h w = Ok (m', l) /\ prd m a h = Ok (m'', l) /\ freached m' /\ freached m''.
  Proof.
    intros (c & evs & Hs & Hr) Ha Hh Hw. unfold ctw_factor_update, ctw_factor_predict.
    destruct (ctw_step M fresh false A inK okw Inv HM Hfresh K HK (fun k _ => eq_refl) ctxD D (ctxD_ok D K HK0) evs c
                (Event a h w) Hr (conj Ha (conj Hh Hw))) as (c' & c'' & l & Eu & Ep & Hr' & Hr'' & _).
    cbn [ev_sym ev_hist ev_wt] in *.
    assert (Hd : qc_depth (qo_root (use_history m h false)) = Z.of_nat D) by exact (csim_depth Q _ _ _ Hs).
    rewrite (upd_default Q Hlaw fresh D _ a w Hd), (prd_default Q Hlaw fresh D _ a Hd).
    pose proof (obj_update_sim Q Hlaw fresh Hf0 D ctxD (ctxD_length D) (use_history m h false) c a w Hs) as G1.
    pose proof (obj_predict_sim Q Hlaw fresh Hf0 D ctxD (ctxD_length D) (use_history m h false) c a Hs) as G2.
    cbn [use_history qo_history] in G1, G2. rewrite Eu in G1. rewrite Ep in G2.
    destruct (qobj_update Q fresh ctxD (use_history m h false) a w) as [[m' l']|]; cbn [same_result] in G1; [|contradiction].
    destruct (qobj_log_predict Q fresh ctxD (use_history m h false) a) as [[m'' l'']|]; cbn [same_result] in G2; [|contradiction].
    cbn [fst snd] in *. destruct G1 as (A1 & <- & _). destruct G2 as (B1 & <- & _).
    exists m', m'', l. split; [reflexivity|]. split; [reflexivity|]. split; [exists c'; eauto|exists c''; eauto].
  Qed.

  Lemma freached_exec ops : forall m m' rs, freached m -> Forall ok_fop ops -> exec upd prd m ops = Ok (m', rs) -> freached m'.
  Proof.
    induction ops as [|o ops IH]; intros m m' rs Hm Hok H; cbn [exec] in H; [injection H as <- <-; exact Hm|].
    inversion Hok as [|x y Ho Hok']; subst. destruct o as [a h w|a h]; cbn [do_op ok_fop] in *.
    - destruct (freached_step m a h w Hm) as (m1 & m2 & l & E1 & _ & H1 & _); try tauto. rewrite E1 in H. cbn [bind] in H.
      destruct (exec upd prd m1 ops) as [[m3 rs3]|] eqn:E; cbn [bind] in H; [|discriminate]. injection H as <- <-. eauto.
    - destruct (freached_step m a h 1 Hm) as (m1 & m2 & l & _ & E1 & _ & H1); try tauto. rewrite E1 in H. cbn [bind] in H.
      destruct (exec upd prd m2 ops) as [[m3 rs3]|] eqn:E; cbn [bind] in H; [|discriminate]. injection H as <- <-. eauto.
  Qed.

  Lemma updated_incl ops : Forall (ok_hop A okw) ops -> incl (updated ops) K.
  Proof.
    intros Hok x Hx. apply in_flat_map in Hx. destruct Hx as (o & Ho & Hx). rewrite Forall_forall in Hok. specialize (Hok o Ho).
    destruct o as [a w|a]; cbn in Hx; [|contradiction]. destruct Hx as [<-|[]]. apply HKA, Hok.
  Qed.

  (** The factor whose turn it is. *)
  Lemma turn ops s rs : Forall (ok_hop A okw) ops -> hexec update predict init ops = Ok (s, rs) ->
    full n s /\ incl (fo_history s) K /\ exists m, nth_error (fo_models s) (length (fo_history s) mod n) = Some m /\ freached m.
  Proof.
    intros Hok E. destruct (fz_routes upd prd base n Hn _ _ _ E) as (Hl & Hh & _ & Hlen & Hfac).
    destruct (routes upd prd n Hn ops _ _ _ (full_init base n) E) as (Hfull & _). split; [exact Hfull|].
    split; [rewrite Hh; now apply updated_incl|].
    destruct (Hfac (length (fo_history s) mod n)%nat) as (m & Hm & Hex); [apply Nat.mod_upper_bound; lia|]. exists m. split; [exact Hm|].
    rewrite mine_fst in Hex by (rewrite with_length; exact Hl). eapply freached_exec; [exact freached_init| |exact Hex].
    apply mine_ok, with_ok; [intros x []|exact Hok].
  Qed.

  Lemma fz_ctw_agrees ops : Forall (ok_hop A okw) ops -> exists s rs, hexec update predict init ops = Ok (s, rs) /\
    forall a w, In a A -> okw w -> exists s' s'' l, update s a w = Ok (s', l) /\ predict s a = Ok (s'', l).
  Proof.
    intros Hok. destruct (ctw_hexec ops Hok) as (s & rs & E). exists s, rs. split; [exact E|]. intros a w Ha Hw.
    destruct (turn ops s rs Hok E) as ([Hl Hu] & Hh & m & Hm & Hr).
    destruct (freached_step m a (fo_history s) w Hr Ha Hh Hw) as (m' & m'' & l & E1 & E2 & _).
    unfold fz_update, fz_log_predict. rewrite (index_at upd prd n Hn s Hl). cbn [bind]. rewrite Hm, E1, E2. cbn [bind]. eauto.
  Qed.

  Lemma fz_ctw_distribution ops : lawful (q_model Q) A bare okw Inv -> Forall (ok_hop A okw) ops ->
    exists s rs, hexec update predict init ops = Ok (s, rs) /\
      Rsum (map (fun a => match predict s a with Ok (_, l) => exp l | Err _ => 0 end) A) = 1.
  Proof.
    intros HL Hok. destruct (ctw_hexec ops Hok) as (s & rs & E). exists s, rs. split; [exact E|].
    destruct (turn ops s rs Hok E) as ([Hl Hu] & Hh & m & Hm & (c & evs & Hs & Hrep)).
    assert (HN : forall s h, Inv s -> incl h K -> Rsum (map (fun a => pred_prob M s a h) A) = 1).
    { intros s0 h0 Hi _. apply (law_norm _ _ _ _ _ HL s0 [] Hi eq_refl). }
    etransitivity; [|exact (law_norm _ _ _ _ _ (ctw_lawful_with M fresh false A inK okw Inv HM Hfresh K HK (fun k _ => eq_refl)
                 ctxD D (ctxD_ok D K HK0) Hw1 HN) c (fo_history s) (ex_intro (fun evs => rep evs c) _ Hrep) Hh)].
    apply Rsum_map_ext. intros a Ha. unfold pred_prob. cbn [CTW_model_with m_logp].
    unfold fz_log_predict. rewrite (index_at upd prd n Hn s Hl). cbn [bind]. rewrite Hm. unfold ctw_factor_predict.
    assert (Hd : qc_depth (qo_root (use_history m (fo_history s) false)) = Z.of_nat D) by exact (csim_depth Q _ _ _ Hs).
    rewrite (prd_default Q Hlaw fresh D _ a Hd).
    pose proof (obj_predict_sim Q Hlaw fresh Hf0 D ctxD (ctxD_length D) (use_history m (fo_history s) false) c a Hs) as G.
    cbn [use_history qo_history] in G.
    destruct (ctw_log_predict_with _ _ _ _ c a _) as [[c1 r]|e]; destruct (qobj_log_predict _ _ _ _ a) as [[s1 r']|e']; cbn [same_result] in G; try contradiction; cbn [bind].
    - cbn [snd] in G. destruct G as (_ & -> & _). reflexivity.
    - reflexivity.
  Qed.
End ctw.
