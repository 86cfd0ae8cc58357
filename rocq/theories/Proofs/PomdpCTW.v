(** The predictors of the notebook on the hallway: the next observation is a function of the last two
    symbols, so a context tree of depth two describes it. *)
From Coq Require Import Lra Lia.
From Verif Require Import Model.KT Model.CTW Model.FMN Model.Factored Spec.PomdpSpec Spec.SourceSpec Spec.SeqSpec Spec.PTWSpec Spec.FMNSpec Spec.Ops.
From Verif Require Import Proofs.RealFacts Proofs.PyFacts Proofs.ProbFacts Proofs.KTFacts Proofs.KTBinFacts Proofs.KTRedundancy.
From Verif Require Import Proofs.CTWKTFacts Proofs.CTWTop Proofs.CTWProps Proofs.SourceFacts Proofs.SourceCTW Proofs.SeqFacts Proofs.PomdpFacts.
From Verif Require Import Proofs.PTWFacts Proofs.PTWMixture Proofs.PTWTop Proofs.PTWProps Proofs.StoreFacts Proofs.FMNFacts Proofs.FMNProps Proofs.LnBounds.
Open Scope R_scope.

Definition b2z (b : bool) : Z := if b then 1%Z else 0%Z.

(** the events that reach the second factor *)
Fixpoint hall_evs (hist : list Z) (d : bool) (acts : list bool) : list event :=
  match acts with
  | [] => []
  | a :: acts' =>
      let d' := if a then d else negb d in
      Event (b2z d') (hist ++ [b2z a]) 1 :: hall_evs (hist ++ [b2z a; b2z d']) d' acts'
  end.

Lemma hall_evs_length hist d acts : length (hall_evs hist d acts) = length acts.
Proof. revert hist d; induction acts as [|a acts IH]; intros hist d; cbn [hall_evs length]; [reflexivity|]. rewrite IH. reflexivity. Qed.

Definition hall_stream (p : R) (d : bool) (acts : list bool) : list Z :=
  symbols (interleave acts (sights (OHallway (Hallway p d)) acts)).

Lemma hall_stream_cons p d a acts : hall_stream p d (a :: acts) =
  b2z a :: b2z (if a then d else negb d) :: hall_stream p (if a then d else negb d) acts.
Proof. unfold hall_stream. rewrite sights_cons. reflexivity. Qed.

Lemma hall_routed p acts : forall d hist w, Nat.modulo (length hist) 2 = 0%nat ->
  routed 2 1 (events_from hist (hall_stream p d acts) w) = hall_evs hist d acts.
Proof.
  induction acts as [|a acts IH]; intros d hist w Hm; [reflexivity|].
  rewrite hall_stream_cons. cbn [events_from hall_evs]. unfold routed. cbn [filter ev_hist].
  rewrite Hm. cbn [Nat.eqb]. rewrite app_length. cbn [length].
  replace ((length hist + 1) mod 2)%nat with 1%nat.
  2:{ rewrite Nat.add_mod by lia. rewrite Hm. reflexivity. }
  cbn [Nat.eqb map ev_sym ev_hist]. f_equal. rewrite <- app_assoc. cbn [app].
  apply IH. rewrite app_length. cbn [length]. rewrite Nat.add_mod by lia. rewrite Hm. reflexivity.
Qed.

(** ** The source *)
Definition hall_tree : ctree := Branch [Branch [Leaf; Leaf]; Branch [Leaf; Leaf]].
Definition expected (a b : Z) : bool := xorb (b =? 1)%Z (negb (a =? 1)%Z).
Definition hall_theta (q : R) (v : list Z) : R :=
  match v with [a; b] => if expected a b then q else 1 - q | _ => / 2 end.

Lemma hall_theta_range q v : 0 <= q <= 1 -> 0 <= hall_theta q v <= 1.
Proof. intros H. unfold hall_theta. destruct v as [|a [|b [|]]]; try lra. destruct (expected a b); lra. Qed.

Lemma hall_leaf a b c : (a = 0 \/ a = 1)%Z -> (b = 0 \/ b = 1)%Z -> leaf_at [0; 1]%Z [] hall_tree (a :: b :: c) = [a; b].
Proof. intros [-> | ->] [-> | ->]; reflexivity. Qed.

Lemma b2z_bit b : (b2z b = 0 \/ b2z b = 1)%Z.
Proof. destruct b; cbn; auto. Qed.

Lemma recent_two D hist a b : (2 <= D)%nat -> exists c, recent D ((hist ++ [b]) ++ [a]) = a :: b :: c.
Proof.
  intros HD. unfold recent. rewrite !rev_app_distr. destruct D as [|[|D]]; try lia. cbn. eexists. reflexivity.
Qed.

Lemma hall_source D q acts : (2 <= D)%nat -> forall hist d,
  tree_source [0; 1]%Z (hall_theta q) D hall_tree (hall_evs (hist ++ [b2z d]) d acts) = q ^ length acts.
Proof.
  intros HD. induction acts as [|a acts IH]; intros hist d; [reflexivity|].
  unfold tree_source. cbn [hall_evs map Rprod fold_right ev_hist ev_sym length pow].
  destruct (recent_two D hist (b2z a) (b2z d) HD) as (c & ->).
  rewrite hall_leaf by apply b2z_bit. f_equal.
  - unfold hall_theta, expected, coin. destruct a, d; cbn; lra.
  - specialize (IH ((hist ++ [b2z d]) ++ [b2z a]) (if a then d else negb d)). unfold tree_source in IH.
    rewrite <- IH. rewrite <- !app_assoc. reflexivity.
Qed.

Lemma hall_source_first D q p a acts : (2 <= D)%nat ->
  tree_source [0; 1]%Z (hall_theta q) D hall_tree (hall_evs [] (hw_dir (new_hallway p)) (a :: acts)) = (1 - q) * q ^ length acts.
Proof.
  intros HD. cbn [new_hallway hw_dir]. unfold tree_source. cbn [hall_evs map Rprod fold_right ev_hist ev_sym app].
  assert (Hc : exists c, recent D [b2z a] = b2z a :: 0%Z :: c).
  { unfold recent. destruct D as [|[|D]]; try lia. cbn. eexists. reflexivity. }
  destruct Hc as (c & ->). rewrite hall_leaf by (auto using b2z_bit). f_equal.
  - unfold hall_theta, expected, coin. destruct a; cbn; lra.
  - pose proof (hall_source D q acts HD [b2z a] (if a then true else negb true)) as H. unfold tree_source in H.
    exact H.
Qed.

Lemma hall_bits hist d acts : unit_bits (hall_evs hist d acts).
Proof.
  revert hist d; induction acts as [|a acts IH]; intros hist d; cbn [hall_evs]; constructor.
  - cbn. split; [apply b2z_bit|reflexivity].
  - apply IH.
Qed.

Lemma hall_hist hist d acts : incl hist [0; 1]%Z -> Forall (fun e => incl (ev_hist e) [0; 1]%Z) (hall_evs hist d acts).
Proof.
  assert (Hb : forall b, In (b2z b) [0; 1]%Z) by (intros []; cbn; auto).
  revert hist d; induction acts as [|a acts IH]; intros hist d Hh; cbn [hall_evs]; constructor.
  - cbn [ev_hist]. apply incl_app; [exact Hh|]. intros x [<-|[]]. apply Hb.
  - apply IH. apply incl_app; [exact Hh|]. intros x [<-|[<-|[]]]; apply Hb.
Qed.

Lemma hall_tree_ok D : (2 <= D)%nat -> is_tree [0; 1]%Z D hall_tree.
Proof. intros HD. destruct D as [|[|D]]; try lia. repeat (constructor; try reflexivity). Qed.

Lemma hall_cost D : (cost D hall_tree <= 7)%nat.
Proof. destruct D as [|[|[|D]]]; cbn; lia. Qed.

Lemma sel_le ctx v evs : (length (sel ctx v evs) <= length evs)%nat.
Proof. unfold sel. induction evs as [|e evs IH]; cbn [filter]; [lia|]. destruct (matches ctx v e); cbn [length]; lia. Qed.

(** what it costs to predict the first [n] observations *)
Definition hall_bound (n : nat) : R := 1 + ln (INR n + 1) + 4 * learn n + 7 * ln 2.

Lemma hall_ctw D p acts : (2 <= D)%nat -> acts <> [] ->
  exists s l, run (CTW_model KTB_model ktb_init true) (ctw_init ktb_init (Z.of_nat D))
                  (hall_evs [] (hw_dir (new_hallway p)) acts) = Ok (s, l) /\ - l <= hall_bound (length acts).
Proof.
  intros HD Hne. set (n := length acts). set (evs := hall_evs [] (hw_dir (new_hallway p)) acts).
  assert (Hn : (0 < n)%nat) by (unfold n; destruct acts; [congruence|cbn; lia]).
  assert (HN : 1 <= INR n) by (change 1 with (INR 1); apply le_INR; lia).
  set (q := INR n / (INR n + 1)).
  assert (Hq1 : 1 - q = / (INR n + 1)) by (unfold q; field; lra).
  assert (Hi : 0 < / (INR n + 1)) by (apply Rinv_0_lt_compat; lra).
  assert (Hq0 : 0 < q) by (apply Rdiv_lt_0_compat; lra).
  assert (Hq : 0 <= q <= 1) by lra.
  assert (Hsrc : tree_source [0; 1]%Z (hall_theta q) D hall_tree evs = (1 - q) * q ^ (n - 1)).
  { unfold evs, n. destruct acts as [|a acts]; [congruence|]. rewrite hall_source_first by exact HD.
    cbn [length]. rewrite Nat.sub_succ, Nat.sub_0_r. reflexivity. }
  assert (Hpos : 0 < tree_source [0; 1]%Z (hall_theta q) D hall_tree evs).
  { rewrite Hsrc. apply Rmult_lt_0_compat; [lra|]. apply pow_lt. exact Hq0. }
  destruct (ctw_tree_source true [0; 1]%Z D (hall_theta q) hall_tree evs) as (s & l & Hr & Hl); auto.
  { repeat constructor; cbn; intuition discriminate. }
  { cbn; auto. }
  { intros _. apply incl_refl. }
  { lia. }
  { apply hall_tree_ok, HD. }
  { intros v. apply hall_theta_range, Hq. }
  { apply hall_bits. }
  { apply hall_hist. intros x []. }
  exists s, l. split; [exact Hr|]. eapply Rle_trans; [exact Hl|]. unfold hall_bound.
  assert (Hln : - ln (tree_source [0; 1]%Z (hall_theta q) D hall_tree evs) <= 1 + ln (INR n + 1)).
  { rewrite Hsrc, ln_mult by (try apply pow_lt; lra). rewrite Hq1, ln_Rinv by lra. rewrite ln_pow by exact Hq0.
    assert (Hlq : - ln q <= / INR n).
    { unfold q. rewrite <- ln_Rinv by exact Hq0. fold q.
      replace (/ q) with (1 + / INR n) by (unfold q; field; lra).
      replace (/ INR n) with (ln (exp (/ INR n))) at 2 by apply ln_exp.
      apply ln_le; [|apply exp_ineq1_le].
      assert (0 < / INR n) by (apply Rinv_0_lt_compat; lra). lra. }
    assert (INR (n - 1) * - ln q <= 1).
    { rewrite minus_INR by lia. cbn [INR]. assert (0 <= - ln q).
      { rewrite <- ln_Rinv by exact Hq0. rewrite <- ln_1. apply ln_le; [lra|]. rewrite <- Rinv_1. apply Rinv_le_contravar; lra. }
      assert ((INR n - 1) * - ln q <= (INR n - 1) * / INR n) by (apply Rmult_le_compat_l; lra).
      replace ((INR n - 1) * / INR n) with (1 - / INR n) in H0 by (field; lra).
      assert (0 < / INR n) by (apply Rinv_0_lt_compat; lra). lra. }
    lra. }
  assert (Hlv : leaves [0; 1]%Z [] hall_tree = [[0; 0]; [0; 1]; [1; 0]; [1; 1]]%Z) by reflexivity.
  rewrite Hlv. cbn [map]. rewrite !Rsum_cons, Rsum_nil.
  assert (HL : forall v, learn (length (sel (recent D) v evs)) <= learn n).
  { intros v. apply learn_mono. eapply Nat.le_trans; [apply sel_le|]. unfold evs. rewrite hall_evs_length. apply Nat.le_refl. }
  pose proof (HL [0; 0]%Z). pose proof (HL [0; 1]%Z). pose proof (HL [1; 0]%Z). pose proof (HL [1; 1]%Z).
  assert (HC : INR (cost D hall_tree) * ln 2 <= 7 * ln 2).
  { apply Rmult_le_compat_r; [rewrite <- ln_1; apply ln_le; lra|]. replace 7 with (INR 7) by (cbn; lra). apply le_INR, hall_cost. }
  lra.
Qed.

(** ** CTW_KT goes through the same runs *)
Lemma ctwkt_run evs : forall k s s' l, ctwkt_sim k s ->
  run (CTW_model KTB_model ktb_init true) s evs = Ok (s', l) ->
  exists k', run CTWKT_model k evs = Ok (k', l) /\ ctwkt_sim k' s'.
Proof.
  induction evs as [|e evs IH]; intros k s s' l Hk Hr; cbn [run] in *.
  - injection Hr as <- <-. eauto.
  - pose proof (ctwkt_op_sim (OpUpdate (ev_sym e) (ev_hist e) (ev_wt e)) k s Hk) as H. cbn [do_op] in H.
    cbn [CTW_model CTWKT_model m_update] in *.
    destruct (ctw_update KTB_model ktb_init true s _ _ _) as [[s1 l1]|x]; cbn [bind] in Hr; [|discriminate].
    destruct (ctwkt_update k _ _ _) as [[k1 r]|x]; [|contradiction]. destruct H as (-> & H1).
    destruct (run _ s1 evs) as [[s2 l2]|x] eqn:E; cbn [bind] in Hr; [|discriminate]. injection Hr as <- <-.
    destruct (IH _ _ _ _ H1 E) as (k2 & E2 & H2). cbn [bind]. 
    exists k2. rewrite E2. auto.
Qed.

Lemma hall_ctwkt D p acts : (2 <= D)%nat -> acts <> [] ->
  exists k l, run CTWKT_model (ctwkt_init (Z.of_nat D)) (hall_evs [] (hw_dir (new_hallway p)) acts) = Ok (k, l) /\
    - l <= hall_bound (length acts).
Proof.
  intros HD Hne. destruct (hall_ctw D p acts HD Hne) as (s & l & Hr & Hl).
  destruct (ctwkt_run _ (ctwkt_init (Z.of_nat D)) (ctw_init ktb_init (Z.of_nat D)) _ _ (conj eq_refl ksim_new) Hr) as (k & Hk & _). eauto.
Qed.

(** ** Factored((Dumb(), m)) *)
Lemma fac_dumb_run {S2} (M2 : model S2) evs : forall m m' l, run M2 m (routed 2 1 evs) = Ok (m', l) ->
  run (Factored_model (either_model Dumb_model M2)) [inl tt; inr m] evs = Ok ([inl tt; inr m'], l).
Proof.
  induction evs as [|e evs IH]; intros m m' l Hr.
  - cbn in Hr. injection Hr as <- <-. reflexivity.
  - cbn [run Factored_model m_update]. unfold fac_update, fac_index. cbn [length bind].
    unfold routed in Hr. cbn [filter] in Hr. pose proof (Nat.mod_upper_bound (length (ev_hist e)) 2 ltac:(lia)) as Hb.
    destruct (length (ev_hist e) mod 2)%nat as [|[|]] eqn:Em; try lia; cbn [Nat.eqb nth_error] in *.
    + cbn [either_model Dumb_model m_update bind list_set].
      rewrite (IH m m' l Hr). cbn [bind]. do 2 f_equal. lra.
    + cbn [map run ev_sym ev_hist ev_wt] in Hr. cbn [either_model m_update].
      destruct (m_update M2 m (ev_sym e) (ev_hist e) 1) as [[m1 l1]|x]; cbn [bind] in *; [|discriminate].
      fold (routed 2 1 evs) in Hr. destruct (run M2 m1 (routed 2 1 evs)) as [[m2 l2]|x] eqn:E; cbn [bind] in Hr; [|discriminate].
      injection Hr as <- <-. cbn [list_set]. rewrite (IH m1 m2 l2 E). reflexivity.
Qed.

Lemma notebook_run {S2} (M2 : model S2) m p acts m' l : acts <> [] ->
  run M2 m (hall_evs [] (hw_dir (new_hallway p)) acts) = Ok (m', l) ->
  update_seq (Factored_model (either_model Dumb_model M2)) [inl tt; inr m] (hall_stream p true acts) [] 1 =
    Ok ([inl tt; inr m'], [], l).
Proof.
  intros Hne Hr. rewrite update_seq_spec.
  - rewrite (fac_dumb_run M2 _ m m' l); [reflexivity|]. rewrite hall_routed by reflexivity. exact Hr.
  - destruct acts; [congruence|]. rewrite hall_stream_cons. discriminate.
Qed.

Lemma notebook_ctw D p acts : (2 <= D)%nat -> acts <> [] ->
  exists s l, update_seq (Factored_model (either_model Dumb_model CTWKT_model)) [inl tt; inr (ctwkt_init (Z.of_nat D))]
                (hall_stream p true acts) [] 1 = Ok (s, [], l) /\ - l <= hall_bound (length acts).
Proof.
  intros HD Hne. destruct (hall_ctwkt D p acts HD Hne) as (k & l & Hr & Hl).
  exists [inl tt; inr k], l. split; [|exact Hl]. apply notebook_run; assumption.
Qed.

(** ** FMN over CTW_KT *)
Definition bit_hist (h : list Z) : Prop := any_hist h /\ incl h [0; 1]%Z.
Definition kctw_inv (D : nat) (k : ctwkt) : Prop :=
  exists s, ctwkt_sim k s /\ ctw_inv KTB_model ktb_init [0; 1]%Z any_hist nonneg [0; 1]%Z D s.

Lemma bits_nodup : NoDup [0; 1]%Z.
Proof. repeat constructor; cbn; intuition discriminate. Qed.

Lemma ctwkt_steps D : (0 < D)%nat -> steps CTWKT_model [0; 1]%Z bit_hist nonneg (kctw_inv D).
Proof.
  intros HD k a h w (s & Hk & HI) Ha Hh Hw.
  destruct (ctw_steps KTB_model ktb_init true [0; 1]%Z any_hist nonneg ktb_inv [0; 1]%Z D (law_step _ _ _ _ _ ktb_lawful)
    ktb_inv_init bits_nodup ltac:(cbn; auto) (fun _ => incl_refl _) HD s a h w HI Ha Hh Hw) as (s' & l & Hu & Hp & HI').
  pose proof (ctwkt_op_sim (OpUpdate a h w) k s Hk) as H. pose proof (ctwkt_op_sim (OpPredict a h) k s Hk) as H2. cbn [do_op] in H, H2.
  cbn [CTW_model CTWKT_model m_update m_logp] in *. rewrite Hu in H.
  destruct (ctw_log_predict KTB_model ktb_init true s a h) as [[s2 r2]|]; cbn [bind] in Hp; [|discriminate]. injection Hp as ->.
  destruct (ctwkt_update k a h w) as [[k' r]|]; [|contradiction]. destruct H as (-> & H).
  destruct (ctwkt_log_predict k a h) as [[k2 r]|]; [|contradiction]. destruct H2 as (-> & _).
  exists k', l. split; [reflexivity|]. split; [reflexivity|]. exists s'. auto.
Qed.

Lemma kctw_inv_init D : kctw_inv D (ctwkt_init (Z.of_nat D)).
Proof.
  exists (ctw_init ktb_init (Z.of_nat D)). split; [exact (conj eq_refl ksim_new)|].
  apply ctw_inv_init.
Qed.

Lemma hall_ok acts d hist : incl hist [0; 1]%Z -> Forall (ok_event [0; 1]%Z bit_hist nonneg) (hall_evs hist d acts).
Proof.
  intros Hh. apply Forall_forall. intros e He.
  pose proof (proj1 (Forall_forall _ _) (hall_bits hist d acts) e He) as (Hb & Hw).
  pose proof (proj1 (Forall_forall _ _) (hall_hist hist d acts Hh) e He) as Hi.
  split; [cbn; destruct Hb as [-> | ->]; auto|]. split; [split; [exact I|exact Hi]|]. rewrite Hw. unfold nonneg. lra.
Qed.

Lemma hall_fmn D m p acts : (2 <= D)%nat -> acts <> [] ->
  exists s0 s l, fmn_init (LogStore_class ctwkt) m (ctwkt_init (Z.of_nat D)) = Ok s0 /\
    run (FMN_model CTWKT_model (LogStore_class ctwkt) m) s0 (hall_evs [] (hw_dir (new_hallway p)) acts) = Ok (s, l) /\
    - l <= hall_bound (length acts) + ln 2 + INR (pred (levels m (length acts))) * ln (3 / 2).
Proof.
  intros HD Hne. set (evs := hall_evs [] (hw_dir (new_hallway p)) acts).
  assert (Hev : Forall (ok_event [0; 1]%Z bit_hist nonneg) evs) by (apply hall_ok; intros x []).
  pose proof (ctwkt_steps D ltac:(lia)) as HS.
  destruct (fmn_total CTWKT_model (LogStore_class ctwkt) _ [0; 1]%Z bit_hist nonneg (kctw_inv D) (logstore_law ctwkt) m
     HS (ctwkt_init (Z.of_nat D)) evs (kctw_inv_init D) Hev) as (s0 & s & l & H0 & Hr).
  exists s0, s, l. split; [exact H0|]. split; [exact Hr|].
  destruct (hall_ctwkt D p acts HD Hne) as (k & lk & Hk & Hlk). fold evs in Hk.
  assert (Hlen : length evs = length acts) by apply hall_evs_length.
  assert (Hpos : (0 < length acts)%nat) by (destruct acts; [congruence|cbn; lia]).
  assert (Hret : retained CTWKT_model (LogStore_class ctwkt) m s0 evs 0 = [ctwkt_init (Z.of_nat D)]).
  { unfold retained. cbn [firstn run].
    destruct (fmn_logstore_retains CTWKT_model [0; 1]%Z bit_hist nonneg (kctw_inv D) m (ctwkt_init (Z.of_nat D)) [] s0 s0 0 HS
       (kctw_inv_init D) (Forall_nil _) H0 eq_refl) as (H1 & H2).
    cbn [length] in H1, H2. rewrite Nat.div_0_l in H1, H2 by (apply Nat.pow_nonzero; discriminate).
    cbn [LogStore_class st_iter]. change (Nat.log2 (1 + 0)) with 0%nat in *.
    destruct (ls_iter (fm_models s0)) as [|x [|y l0]]; cbn in H1, H2; try discriminate. congruence. }
  pose proof (fmn_competes CTWKT_model (LogStore_class ctwkt) _ [0; 1]%Z bit_hist nonneg (kctw_inv D) (logstore_law ctwkt) m
     HS (ctwkt_init (Z.of_nat D)) evs s0 s l Whole (fun _ => ctwkt_init (Z.of_nat D)) (kctw_inv_init D) Hev H0 Hr) as Hreg.
  cbv zeta in Hreg. rewrite Hlen in Hreg. set (d := levels m (length acts)) in *.
  assert (Hfit : (length acts <= 2 ^ (m + d))%nat) by apply levels_fit.
  assert (Hsg : segments m d 0 Whole = [(0, 2 ^ (m + d))]%nat).
  { destruct d; reflexivity. }
  rewrite Hsg in Hreg. cbn [filter fst] in Hreg. rewrite (proj2 (Nat.ltb_lt 0 (length acts)) Hpos) in Hreg.
  assert (Hp : is_part d Whole) by (destruct d; constructor). specialize (Hreg Hp).
  assert (Hin : forall sg, In sg [(0, 2 ^ (m + d))]%nat -> In (ctwkt_init (Z.of_nat D)) (retained CTWKT_model (LogStore_class ctwkt) m s0 evs (fst sg))).
  { intros sg [<-|[]]. cbn [fst]. rewrite Hret. left. reflexivity. }
  specialize (Hreg Hin). cbn [map fst snd] in Hreg. rewrite Rsum_single, Hret in Hreg. cbn [length skipn INR] in Hreg.
  rewrite firstn_all2 in Hreg by (rewrite Hlen; exact Hfit).
  rewrite (seq_prob_run _ _ _ _ _ Hk), ln_exp, ln_1 in Hreg.
  assert (Hc : INR (pcost d Whole) * ln 2 <= ln 2).
  { assert (0 < ln 2) by (rewrite <- ln_1; apply ln_increasing; lra). destruct d; cbn [pcost INR]; nra. }
  lra.
Qed.

Lemma notebook_fmn D m p acts : (2 <= D)%nat -> acts <> [] ->
  exists s0 s l, fmn_init (LogStore_class ctwkt) m (ctwkt_init (Z.of_nat D)) = Ok s0 /\
    update_seq (Factored_model (either_model Dumb_model (FMN_model CTWKT_model (LogStore_class ctwkt) m))) [inl tt; inr s0]
      (hall_stream p true acts) [] 1 = Ok (s, [], l) /\
    - l <= hall_bound (length acts) + ln 2 + INR (pred (levels m (length acts))) * ln (3 / 2).
Proof.
  intros HD Hne. destruct (hall_fmn D m p acts HD Hne) as (s0 & s & l & H0 & Hr & Hl).
  exists s0, [inl tt; inr s], l. split; [exact H0|]. split; [|exact Hl]. apply notebook_run; assumption.
Qed.

(** ** Together with the generator *)
Section whole.
  Context {G : Type} (random : G -> R * G).

  Lemma taken_hall p n g : exists o f g',
    gen_take random (2 * n) (OHallway (new_hallway p)) Begin g =
      (interleave (map (below p) (draws random n g))
         (sights (OHallway (new_hallway p)) (map (below p) (draws random n g))), o, f, g') /\
    length (map (below p) (draws random n g)) = n.
  Proof.
    destruct (gen_pairs random n (OHallway (new_hallway p)) Begin g (or_introl eq_refl)) as (o & f & g' & E & _).
    exists o, f, g'. split; [exact E|]. rewrite map_length. clear. revert g. induction n as [|n IH]; intros g; [reflexivity|].
    cbn [draws]. destruct (random g) as [u g']. cbn [length]. rewrite IH. reflexivity.
  Qed.

  Lemma whole_ctw D p n g : (2 <= D)%nat -> (0 < n)%nat ->
    exists bs o f g' s l, gen_take random (2 * n) (OHallway (new_hallway p)) Begin g = (bs, o, f, g') /\
      update_seq (Factored_model (either_model Dumb_model CTWKT_model)) [inl tt; inr (ctwkt_init (Z.of_nat D))]
        (symbols bs) [] 1 = Ok (s, [], l) /\
      - l <= 1 + ln (INR n + 1) + 4 * learn n + 7 * ln 2.
  Proof.
    intros HD Hn. destruct (taken_hall p n g) as (o & f & g' & E & Hlen).
    destruct (notebook_ctw D p (map (below p) (draws random n g)) HD) as (s & l & Hu & Hl).
    { intros H. rewrite H in Hlen. cbn in Hlen. lia. }
    rewrite Hlen in Hl. do 4 eexists. exists s, l. split; [exact E|]. split; [exact Hu|exact Hl].
  Qed.

  Lemma whole_fmn D m p n g : (2 <= D)%nat -> (0 < n)%nat ->
    exists bs o f g' s0 s l, gen_take random (2 * n) (OHallway (new_hallway p)) Begin g = (bs, o, f, g') /\
      fmn_init (LogStore_class ctwkt) m (ctwkt_init (Z.of_nat D)) = Ok s0 /\
      update_seq (Factored_model (either_model Dumb_model (FMN_model CTWKT_model (LogStore_class ctwkt) m))) [inl tt; inr s0]
        (symbols bs) [] 1 = Ok (s, [], l) /\
      - l <= 1 + ln (INR n + 1) + 4 * learn n + 8 * ln 2 + INR (pred (levels m n)) * ln (3 / 2).
  Proof.
    intros HD Hn. destruct (taken_hall p n g) as (o & f & g' & E & Hlen).
    destruct (notebook_fmn D m p (map (below p) (draws random n g)) HD) as (s0 & s & l & H0 & Hu & Hl).
    { intros H. rewrite H in Hlen. cbn in Hlen. lia. }
    rewrite Hlen in Hl. do 4 eexists. exists s0, s, l. split; [exact E|]. split; [exact H0|]. split; [exact Hu|].
    unfold hall_bound in Hl. lra.
  Qed.
End whole.
