(** C76: what a run submits, and which scripts are there afterwards. *)
From Verif Require Import Model.Jobs Spec.JobsSpec Proofs.StrFacts Proofs.DictFacts Proofs.ParamsFacts Proofs.ProtocolFacts Proofs.FileNamesFacts Proofs.LogDataFacts Proofs.JobsFacts.
Open Scope Z_scope.

Lemma choices_sets kwargs : NoDup (map fst kwargs) -> choices kwargs (unique_dict_sets streq kwargs).
Proof.
  intros N. split; [|split].
  - apply (sets_in streq streq_spec), N.
  - now apply sets_length.
  - now apply sets_nodup; try exact streq_spec.
Qed.

Lemma nodup_same {A} (d : list (pystr * A)) k x y : NoDup (map fst d) -> In (k, x) d -> In (k, y) d -> x = y.
Proof.
  intros N I J. apply (in_get streq streq_spec _ _ _ N) in I. apply (in_get streq streq_spec _ _ _ N) in J. congruence.
Qed.

Lemma set_get (kwargs : list (pystr * list jval)) sets d k vs : NoDup (map fst kwargs) -> choices kwargs sets -> In d sets -> In (k, vs) kwargs ->
  exists v, gd_get streq d k = Some v /\ In v vs.
Proof.
  intros N (C & _) Hd Hk. apply C in Hd as [K V].
  assert (I : In k (map fst d)) by (rewrite K; apply (in_map fst _ _ Hk)).
  apply (get_keys streq streq_spec) in I as [v G]. exists v. split; [exact G|].
  apply (get_in streq streq_spec) in G. destruct (V k v G) as (vs' & H1 & H2).
  now rewrite (nodup_same kwargs k vs vs' N Hk H1).
Qed.

Lemma options_ask (kwargs : list (pystr * list jval)) sets : has_options kwargs -> choices kwargs sets ->
  Forall (fun ps => exists j, asks ps j /\ flat_job j) sets.
Proof.
  intros (N & O & ns & D) C. apply Forall_forall. intros ps I.
  assert (K : forall k, In k [lit "base_dir"; lit "platform"; lit "protocol"; lit "model"] ->
    exists s, gd_get streq ps k = Some (JStr s) /\ ~ In 10 s).
  { intros k Hk. destruct (O k Hk) as (vs & Hv & F). destruct (set_get kwargs sets ps k _ N C I Hv) as (v & G & Iv).
    apply in_map_iff in Iv as (s & <- & Is). exists s. split; [exact G|]. rewrite Forall_forall in F. now apply F. }
  destruct (K (lit "base_dir")) as (b & G1 & F1); [now left|].
  destruct (K (lit "platform")) as (p & G2 & F2); [right; now left|].
  destruct (K (lit "protocol")) as (q & G3 & F3); [do 2 right; now left|].
  destruct (K (lit "model")) as (m & G4 & F4); [do 3 right; now left|].
  destruct (set_get kwargs sets ps _ _ N C I D) as (v & G5 & Iv). apply in_map_iff in Iv as (n & <- & _).
  exists (Job b p q m n). split; [repeat split; assumption|repeat split; assumption].
Qed.

Theorem run_ uspace qsub js (fs : filesys) kwargs : Forall safe (js_log_name js) -> has_options kwargs ->
  exists sets fs' subs, choices kwargs sets /\ run uspace qsub js fs kwargs = (fs', Ok subs) /\
    history uspace qsub js fs 0 sets subs fs' /\
    length subs = fold_right (fun p n => length (snd p) * n)%nat 1%nat kwargs.
Proof.
  intros S O. pose proof (choices_sets kwargs (proj1 O)) as C. exists (unique_dict_sets streq kwargs).
  destruct (run_sets_ok uspace qsub js S (unique_dict_sets streq kwargs) fs 0 (options_ask kwargs _ O C)) as (fs' & subs & E & H).
  exists fs', subs. split; [exact C|]. split; [exact E|]. split; [exact H|].
  destruct C as (_ & <- & _). clear - H. induction H; cbn; congruence.
Qed.

(** ** The files afterwards *)
Section files.
  Variable uspace : Z -> bool.
  Variable qsub : nat -> pystr -> option pystr.
  Variable js : jobset.
  Notation history := (history uspace qsub js).

  Lemma other_kept fs i sets subs fs' p : history fs i sets subs fs' ->
    (forall s, In s subs -> p <> sub_path s /\ sub_cmd s <> lit "qsub " ++ p) -> gd_get streq fs' p = gd_get streq fs p.
  Proof.
    induction 1 as [|fs i ps j s fs1 sets subs fs2 A Su (L1 & L2 & L3) H IH]; intros K; [reflexivity|].
    rewrite IH by (intros s' I; apply K; now right). destruct (K s (or_introl eq_refl)) as [K1 K2].
    apply L3; [exact K1|]. intros ->. apply K2, (su_cmd _ _ _ _ _ _ _ Su).
  Qed.

  Lemma script_temp fs i sets subs fs' : history fs i sets subs fs' -> forall s, In s subs ->
    (exists j, sub_cmd s = lit "qsub " ++ in_dir (js_log_name js) (job_name j)) /\
    exists j id, sub_path s = in_dir (js_log_name js) (job_name j ++ lit "." ++ id ++ lit ".sh").
  Proof.
    induction 1 as [|fs i ps j s fs1 sets subs fs2 A Su L H IH]; intros s' I; [easy|]. destruct I as [<-|I]; [|now apply IH].
    split; [exists j; apply (su_cmd _ _ _ _ _ _ _ Su)|]. destruct (su_path _ _ _ _ _ _ _ Su) as (id & _ & E). exists j, id. exact E.
  Qed.

  Lemma not_temp fs i sets subs fs' fs2 i2 sets2 subs2 fs2' : history fs i sets subs fs' -> history fs2 i2 sets2 subs2 fs2' ->
    forall s s' p, In s subs -> In s' subs2 -> p = sub_path s -> sub_cmd s' <> lit "qsub " ++ p.
  Proof.
    intros H H2 s s' p I I' -> E. destruct (script_temp _ _ _ _ _ H s I) as [_ (j & id & E1)].
    destruct (script_temp _ _ _ _ _ H2 s' I') as [(j' & E2) _]. rewrite E2, E1 in E. apply app_inv_head in E.
    exact (temp_script _ j' _ j id E).
  Qed.

  Lemma last_kept fs i sets subs fs' : history fs i sets subs fs' -> forall pre s post, subs = pre ++ s :: post ->
    (forall s', In s' post -> sub_path s' <> sub_path s) -> gd_get streq fs' (sub_path s) = Some (sub_script s).
  Proof.
    induction 1 as [|fs i ps j s0 fs1 sets subs fs2 A Su L H IH]; intros pre s post E K; [now destruct pre|].
    destruct pre as [|x pre]; injection E as -> E.
    - subst subs. rewrite (other_kept _ _ _ _ _ (sub_path s) H); [apply L|].
      intros s' I. split; [now apply not_eq_sym, K|].
      assert (H0 : history fs i (ps :: sets) (s :: post) fs2) by (econstructor; eassumption).
      apply (not_temp _ _ _ _ _ _ _ _ _ _ H0 H s s' (sub_path s)); [now left|exact I|reflexivity].
    - now apply (IH pre s post).
  Qed.

  Lemma temp_gone fs i sets subs fs' : history fs i sets subs fs' -> forall s p, In s subs ->
    sub_cmd s = lit "qsub " ++ p -> gd_get streq fs' p = None.
  Proof.
    induction 1 as [|fs i ps j s0 fs1 sets subs fs2 A Su (L1 & L2 & L3) H IH]; intros s p I E; [easy|].
    destruct I as [<-|I]; [|now apply (IH s)].
    rewrite (su_cmd _ _ _ _ _ _ _ Su) in E. apply app_inv_head in E. subst p. clear IH.
    set (p := in_dir (js_log_name js) (job_name j)) in *. clear L1 L3 A Su.
    assert (N : forall s', In s' subs -> p <> sub_path s').
    { intros s' I E. destruct (script_temp _ _ _ _ _ H s' I) as [_ (j' & id & E1)]. rewrite E1 in E. exact (temp_script _ j _ j' id E). }
    clearbody p. clear ps. revert L2 N. induction H as [|fs1 i' ps j' s' fs3 sets subs fs2 A Su (M1 & M2 & M3) H IH]; intros L2 N; [exact L2|].
    apply IH; [|intros s'' I; apply N; now right].
    destruct (streq p (in_dir (js_log_name js) (job_name j'))) eqn:E; [apply streq_spec in E as ->; exact M2|].
    rewrite M3; [exact L2| |].
    - apply N. now left.
    - intros ->. now rewrite same_key in E.
  Qed.
End files.

Theorem files_ uspace qsub js (fs : filesys) kwargs fs' subs : Forall safe (js_log_name js) -> has_options kwargs ->
  run uspace qsub js fs kwargs = (fs', Ok subs) ->
  (forall pre s post, subs = pre ++ s :: post -> (forall s', In s' post -> sub_path s' <> sub_path s) ->
    gd_get streq fs' (sub_path s) = Some (sub_script s)) /\
  (forall s p, In s subs -> sub_cmd s = lit "qsub " ++ p -> gd_get streq fs' p = None) /\
  (forall p, (forall s, In s subs -> p <> sub_path s /\ sub_cmd s <> lit "qsub " ++ p) -> gd_get streq fs' p = gd_get streq fs p).
Proof.
  intros S O E. destruct (run_ uspace qsub js fs kwargs S O) as (sets & fs2 & subs2 & _ & E2 & H & _).
  rewrite E2 in E. injection E as <- <-. split; [|split].
  - exact (last_kept uspace qsub js _ _ _ _ _ H).
  - exact (temp_gone uspace qsub js _ _ _ _ _ H).
  - intros p. exact (other_kept uspace qsub js _ _ _ _ _ p H).
Qed.

(** ** Scripts of different jobs *)
Lemma digits_same m n : 0 <= m -> 0 <= n -> str_of_int m = str_of_int n -> m = n.
Proof.
  intros Hm Hn E. rewrite !str_of_nat_pos in E by assumption.
  destruct (str_of_nat_spec m Hm) as (_ & _ & A). destruct (str_of_nat_spec n Hn) as (_ & _ & B). congruence.
Qed.
Lemma digits_dot m : 0 <= m -> ~ In 46 (str_of_int m) /\ ~ In 45 (str_of_int m).
Proof.
  intros Hm. rewrite str_of_nat_pos by exact Hm. destruct (str_of_nat_spec m Hm) as (_ & D & _).
  split; apply (digits_no _ _ D); lia.
Qed.

Lemma names_differ j1 j2 (t1 t2 : pystr) : plain_job j1 -> plain_job j2 ->
  job_name j1 ++ 46 :: t1 = job_name j2 ++ 46 :: t2 ->
  j_protocol j1 = j_protocol j2 /\ j_model j1 = j_model j2 /\ j_depth j1 = j_depth j2 /\ t1 = t2.
Proof.
  intros (A1 & B1 & C1 & _) (A2 & B2 & C2 & _) E. unfold job_name in E. rewrite <- !app_assoc in E. cbn [app] in E.
  apply cut_unique in E as [E1 E]; [|assumption|assumption]. rewrite <- !app_assoc in E. cbn [app] in E.
  apply cut_unique in E as [E2 E]; [|assumption|assumption].
  apply cut_unique in E as [E3 E]; [|now apply digits_dot|now apply digits_dot].
  repeat split; try assumption. now apply digits_same.
Qed.

Lemma in_dir_inj dir n1 n2 : (forall s, n1 <> 47 :: s) -> (forall s, n2 <> 47 :: s) -> in_dir dir n1 = in_dir dir n2 -> n1 = n2.
Proof.
  intros A B E. assert (K : forall n, (forall s, n <> 47 :: s) -> is_prefix [47] n = false).
  { intros [|c n] N; [reflexivity|]. cbn [is_prefix]. destruct (Z.eqb_spec 47 c) as [<-|]; [now destruct (N n)|reflexivity]. }
  unfold in_dir in E. destruct dir; [exact E|]. rewrite !K in E by assumption. apply app_inv_head in E. now injection E.
Qed.
Lemma name_slash j t : plain_job j -> forall s, job_name j ++ t <> 47 :: s.
Proof.
  intros (_ & _ & _ & N) s. unfold job_name. destruct (j_protocol j) as [|c p] eqn:E; [discriminate|].
  intros [= -> _]. now apply (N p).
Qed.

Lemma paths_differ uspace qsub js fs1 i1 j1 s1 fs2 i2 j2 s2 : plain_job j1 -> plain_job j2 ->
  submitted uspace qsub js fs1 i1 j1 s1 -> submitted uspace qsub js fs2 i2 j2 s2 -> sub_path s1 = sub_path s2 ->
  j_protocol j1 = j_protocol j2 /\ j_model j1 = j_model j2 /\ j_depth j1 = j_depth j2 /\
  exists id, queue_id uspace qsub js i1 (sub_cmd s1) id /\ queue_id uspace qsub js i2 (sub_cmd s2) id.
Proof.
  intros P1 P2 S1 S2 E. destruct (su_path _ _ _ _ _ _ _ S1) as (id1 & Q1 & E1). destruct (su_path _ _ _ _ _ _ _ S2) as (id2 & Q2 & E2).
  rewrite E1, E2 in E. apply in_dir_inj in E; [|now apply name_slash|now apply name_slash].
  apply (names_differ j1 j2 (id1 ++ lit ".sh") (id2 ++ lit ".sh") P1 P2) in E as (A & B & C & E).
  apply app_inv_tail in E as <-. repeat split; try assumption. exists id1. now split.
Qed.

Lemma Forall2_in_r {A B} (R : A -> B -> Prop) l m y : Forall2 R l m -> In y m -> exists x, In x l /\ R x y.
Proof.
  induction 1 as [|a b l m H F IH]; intros I; [easy|]. destruct I as [<-|I]; [exists a; split; [now left|exact H]|].
  destruct (IH I) as (x & Ix & Hx). exists x. split; [now right|exact Hx].
Qed.
Lemma Forall2_impl {A B} (R Q : A -> B -> Prop) l m : (forall x y, R x y -> Q x y) -> Forall2 R l m -> Forall2 Q l m.
Proof. intros H. induction 1; constructor; auto. Qed.

Lemma dict_ext {A} : forall d1 d2 : list (pystr * A), map fst d1 = map fst d2 -> NoDup (map fst d1) ->
  (forall k, In k (map fst d1) -> gd_get streq d1 k = gd_get streq d2 k) -> d1 = d2.
Proof.
  induction d1 as [|[k v] d1 IH]; intros [|[k' v'] d2] E N G; try discriminate E; [reflexivity|].
  cbn [map fst] in *. injection E as <- E. inversion N as [|? ? Nk N']; subst.
  assert (v = v') as <-.
  { specialize (G k (or_introl eq_refl)). cbn [gd_get] in G. rewrite same_key in G. congruence. }
  f_equal. apply IH; [exact E|exact N'|]. intros x I. specialize (G x (or_intror I)). cbn [gd_get] in G.
  destruct (streq k x) eqn:S; [apply streq_spec in S; now subst|exact G].
Qed.

(** Only protocols, models and depths may have more than one option. *)
Definition the_keys : list pystr := [lit "protocol"; lit "model"; lit "depth"].

Lemma same_set (kwargs : list (pystr * list jval)) sets d1 d2 j1 j2 : NoDup (map fst kwargs) -> choices kwargs sets ->
  (forall k vs, In (k, vs) kwargs -> ~ In k the_keys -> (length vs <= 1)%nat) ->
  In d1 sets -> In d2 sets -> asks d1 j1 -> asks d2 j2 ->
  j_protocol j1 = j_protocol j2 -> j_model j1 = j_model j2 -> j_depth j1 = j_depth j2 -> d1 = d2.
Proof.
  intros N C One I1 I2 (_ & _ & A3 & A4 & A5) (_ & _ & B3 & B4 & B5) E3 E4 E5.
  assert (K1 : map fst d1 = map fst kwargs) by (now apply C). assert (K2 : map fst d2 = map fst kwargs) by (now apply C).
  assert (G : forall k, In k (map fst kwargs) -> gd_get streq d1 k = gd_get streq d2 k).
  { intros k Ik. apply in_map_iff in Ik as ([k' vs] & <- & Ik). cbn [fst].
    destruct (set_get kwargs sets d1 k' vs N C I1 Ik) as (v1 & G1 & V1). destruct (set_get kwargs sets d2 k' vs N C I2 Ik) as (v2 & G2 & V2).
    destruct (in_dec (list_eq_dec Z.eq_dec) k' the_keys) as [T|T].
    - destruct T as [<-|[<-|[<-|[]]]]; congruence.
    - specialize (One k' vs Ik T). destruct vs as [|v [|w vs]]; [destruct V1| |cbn in One; lia].
      destruct V1 as [<-|[]], V2 as [<-|[]]. congruence. }
  assert (D1 : NoDup (map fst d1)) by (now rewrite K1). assert (D2 : NoDup (map fst d2)) by (now rewrite K2).
  rewrite <- K2 in K1. apply dict_ext; [exact K1|exact D1|]. intros k I. apply G. rewrite <- K2, <- K1. exact I.
Qed.

Lemma history_jobs uspace qsub js fs i sets subs fs' : history uspace qsub js fs i sets subs fs' ->
  Forall2 (fun ps s => exists fs0 i0 j, (i <= i0)%nat /\ asks ps j /\ submitted uspace qsub js fs0 i0 j s) sets subs.
Proof.
  induction 1 as [|fs i ps j s fs1 sets subs fs2 A Su L H IH]; constructor.
  - exists fs, i, j. split; [lia|]. split; assumption.
  - revert IH. apply Forall2_impl. intros ps' s' (fs0 & i0 & j' & Hi & Q). exists fs0, i0, j'. split; [lia|exact Q].
Qed.

Lemma paths_kept uspace qsub js fs i sets subs fs' : history uspace qsub js fs i sets subs fs' -> NoDup (map sub_path subs) ->
  forall s, In s subs -> gd_get streq fs' (sub_path s) = Some (sub_script s).
Proof.
  intros H N s I. apply in_split in I as (pre & post & ->). apply (last_kept uspace qsub js _ _ _ _ _ H pre s post); [reflexivity|].
  intros s' I E. rewrite map_app in N. apply NoDup_remove_2 in N. apply N. cbn [map]. apply in_or_app. right. rewrite <- E. now apply in_map.
Qed.

Lemma asks_plain (kwargs : list (pystr * list jval)) sets ps j : NoDup (map fst kwargs) -> choices kwargs sets -> plain_options kwargs ->
  In ps sets -> asks ps j -> plain_job j.
Proof.
  intros N C (P1 & P2 & P3) I (_ & _ & A3 & A4 & A5). apply C in I as [_ V].
  apply (get_in streq streq_spec) in A3, A4, A5.
  destruct (V _ _ A3) as (vs3 & H3 & V3). destruct (V _ _ A4) as (vs4 & H4 & V4). destruct (V _ _ A5) as (vs5 & H5 & V5).
  destruct (P1 _ _ H3 V3) as [Q1 Q2]. split; [exact Q1|]. split; [exact (P2 _ _ H4 V4)|]. split; [exact (P3 _ _ H5 V5)|exact Q2].
Qed.

Theorem kept_ uspace qsub js (fs : filesys) kwargs fs' subs : Forall safe (js_log_name js) -> has_options kwargs -> plain_options kwargs ->
  Forall (fun p => NoDup (snd p)) kwargs ->
  (forall k vs, In (k, vs) kwargs -> ~ In k [lit "protocol"; lit "model"; lit "depth"] -> (length vs <= 1)%nat) ->
  run uspace qsub js fs kwargs = (fs', Ok subs) ->
  NoDup (map sub_path subs) /\ forall s, In s subs -> gd_get streq fs' (sub_path s) = Some (sub_script s).
Proof.
  intros S O P D One E. destruct (run_ uspace qsub js fs kwargs S O) as (sets & fs2 & subs2 & C & E2 & H & _).
  rewrite E2 in E. injection E as <- <-.
  enough (N : NoDup (map sub_path subs2)) by (split; [exact N|now apply (paths_kept uspace qsub js _ _ _ _ _ H)]).
  pose proof (history_jobs _ _ _ _ _ _ _ _ H) as J. assert (NS : NoDup sets) by (now apply C).
  assert (Incl : incl sets sets) by (intros x; auto). revert Incl NS. clear H E2.
  assert (K : forall l, incl l sets -> NoDup l -> forall ss, Forall2 (fun ps s => exists fs0 i0 j, (0 <= i0)%nat /\ asks ps j /\ submitted uspace qsub js fs0 i0 j s) l ss -> NoDup (map sub_path ss)).
  { induction l as [|ps l IH]; intros Inc NS ss F; inversion F as [|? s ? ss' (fs0 & i0 & j & _ & A & Su) F']; subst; cbn [map]; [constructor|].
    inversion NS as [|? ? Np NS']; subst. constructor; [|apply IH; [intros x Hx; apply Inc; now right|exact NS'|exact F']].
    intros I. apply in_map_iff in I as (s2 & Es & I2).
    destruct (Forall2_in_r _ _ _ _ F' I2) as (ps2 & Ip2 & (fs3 & i3 & j3 & _ & A3 & Su3)).
    assert (I1' : In ps sets) by (apply Inc; now left). assert (I2' : In ps2 sets) by (apply Inc; now right).
    destruct (paths_differ uspace qsub js _ _ j _ _ _ j3 _ (asks_plain kwargs sets ps j (proj1 O) C P I1' A)
      (asks_plain kwargs sets ps2 j3 (proj1 O) C P I2' A3) Su Su3 (eq_sym Es)) as (X1 & X2 & X3 & _).
    apply Np. now rewrite (same_set kwargs sets ps ps2 j j3 (proj1 O) C One I1' I2' A A3 X1 X2 X3). }
  intros Inc NS. exact (K sets Inc NS subs2 J).
Qed.

(** If the queue gives every job its own number, nothing is lost either. *)
Theorem numbered_ uspace qsub js (fs : filesys) kwargs fs' subs : Forall safe (js_log_name js) -> has_options kwargs -> plain_options kwargs ->
  (forall i1 i2 c1 c2 id, queue_id uspace qsub js i1 c1 id -> queue_id uspace qsub js i2 c2 id -> i1 = i2) ->
  run uspace qsub js fs kwargs = (fs', Ok subs) ->
  NoDup (map sub_path subs) /\ forall s, In s subs -> gd_get streq fs' (sub_path s) = Some (sub_script s).
Proof.
  intros S O P Q E. destruct (run_ uspace qsub js fs kwargs S O) as (sets & fs2 & subs2 & C & E2 & H & _).
  rewrite E2 in E. injection E as <- <-.
  enough (N : NoDup (map sub_path subs2)) by (split; [exact N|now apply (paths_kept uspace qsub js _ _ _ _ _ H)]).
  assert (Incl : incl sets sets) by (intros x; auto). clear E2.
  assert (PJ : forall ps j, In ps sets -> asks ps j -> plain_job j) by (intros ps j; exact (asks_plain kwargs sets ps j (proj1 O) C P)).
  clear Incl C. induction H as [|fs i ps j s fs1 sets subs fs2 A Su L H IH]; cbn [map]; [constructor|].
  assert (PJ' : forall ps j, In ps sets -> asks ps j -> plain_job j) by (intros ps' j' I; apply PJ; now right).
  constructor.
  - intros I. apply in_map_iff in I as (s2 & Es & I2).
    destruct (Forall2_in_r _ _ _ _ (history_jobs _ _ _ _ _ _ _ _ H) I2) as (ps2 & Ip2 & (fs3 & i3 & j3 & Hi & A3 & Su3)).
    destruct (paths_differ uspace qsub js _ _ j _ _ _ j3 _ (PJ ps j (or_introl eq_refl) A) (PJ' ps2 j3 Ip2 A3) Su Su3 (eq_sym Es)) as (_ & _ & _ & id & Q1 & Q2).
    specialize (Q _ _ _ _ _ Q1 Q2). lia.
  - apply IH, PJ'.
Qed.
