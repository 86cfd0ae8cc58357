(** The nodes of CTW_KT. *)
From Verif Require Import Spec.SizesKT.
From Verif Require Import Proofs.PyFacts Proofs.ProbFacts Proofs.CTWFacts Proofs.CTWTop Proofs.CTWKTFacts Proofs.SizesCTW Proofs.SizesEx.
Open Scope nat_scope.

Fixpoint kpaths (n : knode) : list (list Z) :=
  let '(KNode _ _ _ _ _ ch0 ch1) := n in
  [] :: map (cons 0%Z) (match ch0 with None => [] | Some c => kpaths c end)
     ++ map (cons 1%Z) (match ch1 with None => [] | Some c => kpaths c end).

Definition held (Q : knode -> Prop) (o : option knode) : Prop := match o with None => True | Some c => Q c end.
Fixpoint knode_nest (Q : knode -> Prop) (H : forall a b x y z c0 c1, held Q c0 -> held Q c1 -> Q (KNode a b x y z c0 c1)) n : Q n :=
  let '(KNode a b x y z c0 c1) := n in
  H a b x y z c0 c1 (match c0 return held Q c0 with None => I | Some c => knode_nest Q H c end)
    (match c1 return held Q c1 with None => I | Some c => knode_nest Q H c end).

Lemma kpaths_length : forall n, length (kpaths n) = knodes n.
Proof.
  induction n as [a b x y z c0 c1 H0 H1] using knode_nest. cbn [kpaths knodes length]. rewrite app_length, !map_length.
  destruct c0, c1; cbn [held] in *; try rewrite H0; try rewrite H1; cbn [length]; lia.
Qed.

Lemma kpaths_nodup : forall n, NoDup (kpaths n).
Proof.
  induction n as [a b x y z c0 c1 H0 H1] using knode_nest. cbn [kpaths]. constructor.
  - intros H. apply in_app_or in H as [H|H]; apply in_map_iff in H as (q & E & _); discriminate.
  - apply NoDup_app_intro.
    + apply NoDup_map_cons. destruct c0; [exact H0|constructor].
    + apply NoDup_map_cons. destruct c1; [exact H1|constructor].
    + intros p Hp H. apply in_map_iff in Hp as (q & <- & _). apply in_map_iff in H as (q' & E & _). discriminate.
Qed.

Lemma knil n : In [] (kpaths n).
Proof. destruct n. left. reflexivity. Qed.
Lemma new_kpaths : kpaths new_knode = [[]].
Proof. reflexivity. Qed.

Lemma bit_index_bit k : In k [0; 1]%Z -> exists i : bool, bit_index k = Ok i /\ k = if i then 1%Z else 0%Z.
Proof. intros [<-|[<-|[]]]; [exists false|exists true]; split; reflexivity. Qed.

(** replacing one child *)
Lemma kpath_set (i : bool) a b x y z a2 b2 x2 y2 z2 ch0 ch1 child' c :
  let child := match (if i then ch1 else ch0) with Some x => x | None => new_knode end in
  (forall p, In p (kpaths child') <-> In p (kpaths child) \/ prefix p c) ->
  forall p, In p (kpaths (KNode a2 b2 x2 y2 z2 (if i then ch0 else Some child') (if i then Some child' else ch1))) <->
    In p (kpaths (KNode a b x y z ch0 ch1)) \/ prefix p ((if i then 1%Z else 0%Z) :: c).
Proof.
  intros child Hc p. destruct p as [|k p].
  - split; intros _; [left|]; apply knil.
  - assert (G : forall k' l, In (k :: p) (map (cons k') l) <-> k = k' /\ In p l).
    { intros k' l. rewrite in_map_iff. split; [intros (q & E & Hq); injection E as -> ->; auto|]. intros (-> & H). exists p. auto. }
    assert (P : forall k', prefix (k :: p) (k' :: c) <-> k = k' /\ prefix p c).
    { intros k'. split.
      - intros (j & Hj & E). destruct j as [|j]; [discriminate|]. cbn in E. injection E as -> E. split; [reflexivity|]. exists j. cbn in Hj. split; [lia|exact E].
      - intros (-> & H). apply prefix_cons, H. }
    cbn [kpaths In]. rewrite !in_app_iff, !G, P. unfold child in Hc. specialize (Hc p). assert (N : ~ [] = k :: p) by discriminate.
    destruct i.
    + rewrite Hc. destruct ch1 as [c1|]; [tauto|]. rewrite new_kpaths. cbn [In]. pose proof (prefix_nil c) as Hn. split.
      * intros [?|[?|(-> & [[H|[]]|H])]]; [tauto|tauto|subst p; tauto|tauto].
      * intros [[?|[?|(_ & [])]]|(-> & H)]; tauto.
    + rewrite Hc. destruct ch0 as [c0|]; [tauto|]. rewrite new_kpaths. cbn [In]. pose proof (prefix_nil c) as Hn. split.
      * intros [?|[(-> & [[H|[]]|H])|?]]; [tauto|subst p; tauto|tauto|tauto].
      * intros [[?|[(_ & [])|?]]|(-> & H)]; tauto.
Qed.

Lemma kpath_end a b x y z a2 b2 x2 y2 z2 ch0 ch1 p :
  In p (kpaths (KNode a2 b2 x2 y2 z2 ch0 ch1)) <-> In p (kpaths (KNode a b x y z ch0 ch1)) \/ prefix p [].
Proof. split; [auto|]. intros [H|(j & Hj & ->)]; [exact H|]. destruct j; apply knil. Qed.

Lemma knode_update_paths c : forall n a w n' r, incl c [0; 1]%Z -> knode_update c n a w = Ok (n', r) ->
  forall p, In p (kpaths n') <-> In p (kpaths n) \/ prefix p c.
Proof.
  induction c as [|k c IH]; intros [a0 b0 blp clp lp ch0 ch1] a w n' r Hk; cbn [knode_update];
    destruct (bit_index a) as [i|]; cbn [bind]; try discriminate; destruct (py_div _ _) as [q|]; cbn [bind]; try discriminate;
    destruct (py_log q) as [l|]; cbn [bind]; try discriminate.
  - intros H p. injection H as <- _. apply kpath_end.
  - destruct (bit_index_bit k (Hk k (or_introl eq_refl))) as (i' & -> & ->). cbn [bind].
    destruct (knode_update c _ a w) as [[child' r']|] eqn:Hu; cbn [bind]; [|discriminate].
    intros H. injection H as <- _. apply kpath_set. eapply IH; [exact (fun z Hz => Hk z (or_intror Hz))|exact Hu].
Qed.

Lemma knode_predict_paths c : forall n a n' r, incl c [0; 1]%Z -> knode_log_predict c n a = Ok (n', r) ->
  forall p, In p (kpaths n') <-> In p (kpaths n) \/ prefix p c.
Proof.
  induction c as [|k c IH]; intros [a0 b0 blp clp lp ch0 ch1] a n' r Hk; cbn [knode_log_predict];
    destruct (bit_index a) as [i|]; cbn [bind]; try discriminate; destruct (py_div _ _) as [q|]; cbn [bind]; try discriminate;
    destruct (py_log q) as [l|]; cbn [bind]; try discriminate.
  - intros H p. injection H as <- _. apply kpath_end.
  - destruct (bit_index_bit k (Hk k (or_introl eq_refl))) as (i' & -> & ->). cbn [bind].
    destruct (knode_log_predict c _ a) as [[child' r']|] eqn:Hu; cbn [bind]; [|discriminate].
    intros H. injection H as <- _. apply kpath_set. eapply IH; [exact (fun z Hz => Hk z (or_intror Hz))|exact Hu].
Qed.

Lemma ctwkt_exec d ops : 0 < d -> forall s s' rs, ck_depth s = Z.of_nat d ->
  Forall (fun o => incl (op_hist o) [0; 1]%Z) ops ->
  exec ctwkt_update ctwkt_log_predict s ops = Ok (s', rs) ->
  forall p, In p (kpaths (ck_tree s')) <-> In p (kpaths (ck_tree s)) \/ In p (contexts d ops).
Proof.
  intros Hd. induction ops as [|o ops IH]; intros s s' rs Hsd Hk; cbn [exec].
  - intros H p. injection H as <- <-. cbn. tauto.
  - destruct (do_op _ _ s o) as [[s1 r1]|] eqn:E; cbn [bind]; [|discriminate].
    destruct (exec _ _ s1 ops) as [[s2 r2]|] eqn:E2; cbn [bind]; [|discriminate].
    intros H. injection H as <- <-. inversion Hk as [|? ? K1 K2]; subst.
    assert (Hc : incl (recent d (op_hist o)) [0; 1]%Z) by (apply recent_incl; [cbn; auto|exact K1]).
    assert (G : ck_depth s1 = Z.of_nat d /\ forall p, In p (kpaths (ck_tree s1)) <-> In p (kpaths (ck_tree s)) \/ prefix p (recent d (op_hist o))).
    { destruct o as [a h w|a h]; cbn [do_op op_hist] in *; unfold ctwkt_update, ctwkt_log_predict in E; rewrite Hsd, mkcontext_recent in E by exact Hd.
      - destruct (knode_update _ _ _ _) as [[t r']|] eqn:U; cbn [bind] in E; [|discriminate]. injection E as <- _. cbn [ck_depth ck_tree].
        split; [reflexivity|]. eapply knode_update_paths; eassumption.
      - destruct (knode_log_predict _ _ _) as [[t r']|] eqn:U; cbn [bind] in E; [|discriminate]. injection E as <- _. cbn [ck_depth ck_tree].
        split; [reflexivity|]. eapply knode_predict_paths; eassumption. }
    destruct G as (Hd1 & Hp1). intros p. rewrite (IH s1 s2 r2 Hd1 K2 E2 p), Hp1, (recent_prefix d).
    unfold contexts. cbn [flat_map]. rewrite in_app_iff. tauto.
Qed.

Theorem ctwkt_size_contexts d ops s rs : 0 < d -> Forall (fun o => incl (op_hist o) [0; 1]%Z) ops ->
  exec ctwkt_update ctwkt_log_predict (ctwkt_init (Z.of_nat d)) ops = Ok (s, rs) ->
  knodes (ck_tree s) = distinct ([] :: contexts d ops).
Proof.
  intros Hd Hk H. pose proof (ctwkt_exec d ops Hd (ctwkt_init (Z.of_nat d)) _ _ eq_refl Hk H) as Hp. rewrite <- kpaths_length. unfold distinct.
  assert (Hin : forall p, In p (kpaths (ck_tree s)) <-> In p (nodup (list_eq_dec Z.eq_dec) ([] :: contexts d ops))).
  { intros p. rewrite nodup_In, Hp. cbn [ctwkt_init ck_tree]. rewrite new_kpaths. cbn [In]. tauto. }
  apply Nat.le_antisymm; (apply NoDup_incl_length; [|intros p; apply Hin]); [apply kpaths_nodup|apply NoDup_nodup].
Qed.

Theorem ctwkt_size_most d ops s rs : 0 < d -> Forall (fun o => incl (op_hist o) [0; 1]%Z) ops ->
  exec ctwkt_update ctwkt_log_predict (ctwkt_init (Z.of_nat d)) ops = Ok (s, rs) ->
  knodes (ck_tree s) + 1 <= 2 ^ (d + 1).
Proof.
  intros Hd Hk H. rewrite (ctwkt_size_contexts d ops s rs Hd Hk H).
  change 2 with (length [0; 1]%Z) at 1. rewrite <- (words_length [0; 1]%Z d ltac:(cbn; lia)). change (length [0; 1]%Z - 1) with 1. rewrite Nat.mul_1_l. apply Nat.add_le_mono_r. unfold distinct.
  apply NoDup_incl_length; [apply NoDup_nodup|]. intros p Hp. apply nodup_In in Hp. destruct Hp as [<-|Hp].
  { apply in_words; [cbn; lia|]. intros x []. }
  unfold contexts in Hp. apply in_flat_map in Hp as (o & Ho & Hp). apply in_map_iff in Hp as (j & <- & Hj). apply in_seq in Hj.
  apply in_words; [rewrite recent_length; lia|]. apply recent_incl; [cbn; auto|]. rewrite Forall_forall in Hk. apply Hk, Ho.
Qed.

Lemma ctwkt_ex : exists s rs, exec ctwkt_update ctwkt_log_predict (ctwkt_init (Z.of_nat 2)) three_calls = Ok (s, rs) /\ knodes (ck_tree s) = 5%nat.
Proof.
  destruct ctw_ex as (s & rs & H & _). pose proof (ctwkt_is_ctw (Z.of_nat 2) three_calls) as E. rewrite H in E. cbn [bind] in E.
  destruct (exec ctwkt_update _ _ _) as [[k rs']|] eqn:X; [|discriminate]. exists k, rs'. split; [reflexivity|].
  rewrite (ctwkt_size_contexts 2 three_calls k rs' ltac:(lia)) with (2 := X); [vm_compute; reflexivity|].
  assert (Hi : forall l : list Z, Forall (fun x => x = 0%Z \/ x = 1%Z) l -> incl l [0; 1]%Z).
  { intros l Hl x Hx. rewrite Forall_forall in Hl. destruct (Hl x Hx) as [-> | ->]; cbn; tauto. }
  unfold three_calls. repeat apply Forall_cons; try apply Forall_nil; cbn [op_hist]; apply Hi; repeat (apply Forall_cons; [auto|]); apply Forall_nil.
Qed.
