From Coq Require Import Lra.
From Verif Require Import Spec.Sizes.
From Verif Require Import Proofs.PyFacts Proofs.ProbFacts Proofs.CTWFacts Proofs.CTWTop.
Open Scope nat_scope.

Definition cnode_rec_ind {S} (Q : cnode S -> Prop)
  (H : forall b x y z ch, Forall (fun kn => Q (snd kn)) ch -> Q (CNode b x y z ch)) : forall n, Q n :=
  fix go n := match n with
    | CNode b x y z ch => H b x y z ch
        ((fix all l : Forall (fun kn => Q (snd kn)) l :=
            match l with [] => Forall_nil _ | kn :: l' => Forall_cons kn (go (snd kn)) (all l') end) ch)
    end.

(** A node of the tree at the end of the path [p]. *)
Inductive path {S} : cnode S -> list Z -> Prop :=
| path_nil n : path n []
| path_cons b x y z ch k child p : dict_get ch k = Some child -> path child p -> path (CNode b x y z ch) (k :: p).

Fixpoint tidy {S} (n : cnode S) : Prop :=
  let '(CNode _ _ _ _ ch) := n in
  NoDup (map fst ch) /\ (fix all l : Prop := match l with [] => True | kn :: l' => tidy (snd kn) /\ all l' end) ch.

Lemma tidy_unfold {S} b x y z (ch : list (Z * cnode S)) :
  tidy (CNode b x y z ch) <-> NoDup (map fst ch) /\ Forall (fun kn => tidy (snd kn)) ch.
Proof.
  cbn [tidy]. assert (G : forall l : list (Z * cnode S), (fix all l : Prop := match l with [] => True | kn :: l' => tidy (snd kn) /\ all l' end) l <-> Forall (fun kn => tidy (snd kn)) l).
  { induction l as [|kn l IH]; [split; intros; auto|]. split.
    - intros (H1 & H2). constructor; [exact H1|]. apply IH, H2.
    - intros H. inversion H; subst. split; [assumption|]. apply IH. assumption. }
  rewrite G. reflexivity.
Qed.

Fixpoint paths {S} (n : cnode S) : list (list Z) :=
  let '(CNode _ _ _ _ ch) := n in
  [] :: (fix go l := match l with [] => [] | (k, c) :: l' => map (cons k) (paths c) ++ go l' end) ch.

Lemma paths_unfold {S} b x y z (ch : list (Z * cnode S)) :
  paths (CNode b x y z ch) = [] :: flat_map (fun kc => map (cons (fst kc)) (paths (snd kc))) ch.
Proof.
  cbn [paths]. f_equal. induction ch as [|[k c] ch IH]; [reflexivity|]. cbn [flat_map fst snd]. rewrite <- IH. reflexivity.
Qed.

Lemma paths_length {S} : forall n : cnode S, length (paths n) = nodes n.
Proof.
  induction n as [b x y z ch IH] using cnode_rec_ind. rewrite paths_unfold. cbn [length nodes]. f_equal.
  induction IH as [|kn l H _ IHl]; [reflexivity|]. cbn [flat_map map list_sum fold_right].
  fold (list_sum (map (fun kn : Z * cnode S => nodes (snd kn)) l)). rewrite app_length, map_length, H, IHl. reflexivity.
Qed.

Lemma get_in {V} (d : dict V) k v : NoDup (map fst d) -> dict_get d k = Some v <-> In (k, v) d.
Proof.
  induction d as [|[k' v'] d IH]; cbn [map dict_get In]; intros Hn; [split; [discriminate|tauto]|].
  inversion Hn as [|? ? Hni Hn']; subst. destruct (Z.eqb_spec k' k) as [->|Hk].
  - split; [intros H; injection H as <-; left; reflexivity|]. intros [H|H]; [congruence|].
    exfalso. apply Hni. apply in_map_iff. exists (k, v). auto.
  - rewrite (IH Hn'). split; [right; assumption|]. intros [H|H]; [congruence|exact H].
Qed.

Lemma paths_path {S} : forall n : cnode S, tidy n -> forall p, In p (paths n) <-> path n p.
Proof.
  induction n as [b x y z ch IH] using cnode_rec_ind. intros Ht p. apply tidy_unfold in Ht as (Hn & HF).
  rewrite paths_unfold. rewrite Forall_forall in IH, HF. split.
  - intros [<-|H]; [constructor|]. apply in_flat_map in H as ([k c] & Hin & H). cbn [fst snd] in H.
    apply in_map_iff in H as (q & <- & Hq). apply path_cons with c; [apply get_in; assumption|].
    apply (IH (k, c) Hin); [apply (HF (k, c) Hin)|exact Hq].
  - intros H. inversion H as [|? ? ? ? ? k c q Hg Hq]; subst; [left; reflexivity|]. right.
    apply get_in in Hg; [|exact Hn]. apply in_flat_map. exists (k, c). split; [exact Hg|]. apply in_map.
    apply (IH (k, c) Hg); [apply (HF (k, c) Hg)|exact Hq].
Qed.

Lemma NoDup_app_intro {X} (l1 l2 : list X) : NoDup l1 -> NoDup l2 -> (forall x, In x l1 -> ~ In x l2) -> NoDup (l1 ++ l2).
Proof.
  induction 1 as [|x l1 Hx _ IH]; cbn [app]; [auto|]. intros H2 Hd. constructor.
  - rewrite in_app_iff. intros [H|H]; [tauto|]. apply (Hd x); [left; reflexivity|exact H].
  - apply IH; [exact H2|]. intros y Hy. apply Hd. right. exact Hy.
Qed.

Lemma NoDup_map_cons {X} (k : X) l : NoDup l -> NoDup (map (cons k) l).
Proof.
  induction 1 as [|p l Hp _ IH]; cbn [map]; constructor; [|exact IH].
  intros H. apply in_map_iff in H as (q & E & Hq). injection E as ->. tauto.
Qed.

Lemma paths_nodup {S} : forall n : cnode S, tidy n -> NoDup (paths n).
Proof.
  induction n as [b x y z ch IH] using cnode_rec_ind. intros Ht. apply tidy_unfold in Ht as (Hn & HF).
  rewrite paths_unfold. constructor.
  - intros H. apply in_flat_map in H as (kc & _ & H). apply in_map_iff in H as (q & E & _). discriminate.
  - induction ch as [|[k c] ch IHl]; [constructor|]. cbn [flat_map fst snd].
    inversion IH; inversion HF; inversion Hn; subst. apply NoDup_app_intro.
    + apply NoDup_map_cons. cbn [snd] in *. auto.
    + apply IHl; assumption.
    + intros p Hp H. apply in_map_iff in Hp as (q & <- & _). apply in_flat_map in H as ([k' c'] & Hin & H).
      apply in_map_iff in H as (q' & E & _). cbn [fst] in E. injection E as -> _.
      match goal with Hk : ~ In k _ |- _ => apply Hk end. apply in_map_iff. exists (k, c'). auto.
Qed.

Definition prefix (p c : list Z) : Prop := exists j, j <= length c /\ p = firstn j c.

Lemma prefix_cons k p c : prefix (k :: p) (k :: c) <-> prefix p c.
Proof.
  split.
  - intros (j & Hj & E). destruct j as [|j]; [discriminate|]. cbn in E, Hj. injection E as E. exists j. split; [lia|exact E].
  - intros (j & Hj & ->). exists (Datatypes.S j). cbn. split; [lia|reflexivity].
Qed.
Lemma prefix_nil c : prefix [] c.
Proof. exists 0. split; [lia|reflexivity]. Qed.

Lemma tidy_set {S} (ch : list (Z * cnode S)) k c : Forall (fun kn => tidy (snd kn)) ch -> tidy c ->
  Forall (fun kn => tidy (snd kn)) (dict_set ch k c).
Proof.
  intros H Hc. induction H as [|[k' c'] ch Hk Htl IH]; cbn [dict_set]; [constructor; [exact Hc|constructor]|].
  destruct (k' =? k)%Z; (constructor; [assumption|]); [assumption|exact IH].
Qed.

Lemma path_set {S} b x y z b2 x2 y2 z2 (ch : list (Z * cnode S)) (k : Z) (child child' : cnode S) c :
  dict_get ch k = Some child \/ dict_get ch k = None /\ (forall p, path child p -> p = []) ->
  (forall p, path child' p <-> path child p \/ prefix p c) ->
  forall p, path (CNode b2 x2 y2 z2 (dict_set ch k child')) p <-> path (CNode b x y z ch) p \/ prefix p (k :: c).
Proof.
  intros Hch Hp p. split.
  - intros H. inversion H as [|? ? ? ? ? k' c' q Hg Hq]; subst; [left; constructor|].
    destruct (Z.eq_dec k' k) as [->|Hk].
    + rewrite dict_get_set_same in Hg. injection Hg as <-. apply Hp in Hq as [Hq|Hq].
      * destruct Hch as [Hch|(Hch & Hnil)]; [left; econstructor; eassumption|].
        rewrite (Hnil q Hq). right. apply prefix_cons, prefix_nil.
      * right. apply prefix_cons, Hq.
    + rewrite dict_get_set_other in Hg by exact Hk. left. econstructor; eassumption.
  - intros [H|H].
    + inversion H as [|? ? ? ? ? k' c' q Hg Hq]; subst; [constructor|]. destruct (Z.eq_dec k' k) as [->|Hk].
      * destruct Hch as [Hch|(Hch & _)]; [|congruence]. rewrite Hch in Hg. injection Hg as <-.
        apply path_cons with child'; [apply dict_get_set_same|]. apply Hp. left. exact Hq.
      * apply path_cons with c'; [rewrite dict_get_set_other by exact Hk; exact Hg|exact Hq].
    + destruct H as (j & Hj & ->). destruct j as [|j]; [constructor|]. cbn [firstn].
      apply path_cons with child'; [apply dict_get_set_same|]. apply Hp. right. exists j. cbn in Hj. split; [lia|reflexivity].
Qed.

Section ctw.
  Context {S : Type} (M : model S) (fresh : S) (binary : bool).

  Lemma new_path p : path (new_node fresh) p -> p = [].
  Proof. intros H. inversion H; subst; [reflexivity|discriminate]. Qed.
  Lemma new_tidy : tidy (new_node fresh).
  Proof. cbn. split; [constructor|exact I]. Qed.

  Lemma get_tidy (ch : list (Z * cnode S)) k c : Forall (fun kn => tidy (snd kn)) ch -> dict_get ch k = Some c -> tidy c.
  Proof.
    intros HF Hg. rewrite Forall_forall in HF. assert (Hin : In (k, c) ch).
    { revert Hg. clear. induction ch as [|[k' v'] d IH]; cbn [dict_get]; [discriminate|].
      destruct (Z.eqb_spec k' k) as [->|_]; [intros H; injection H as <-; left; reflexivity|]. intros H. right. apply IH, H. }
    exact (HF _ Hin).
  Qed.

  Lemma node_update_paths c : forall n a h w n' r made, Forall (fun k => child_key binary k = Ok k) c -> tidy n ->
    node_update M fresh binary c n a h w = Ok (n', r, made) ->
    tidy n' /\ forall p, path n' p <-> path n p \/ prefix p c.
  Proof.
    induction c as [|k c IH]; intros [base blp clp lp ch] a h w n' r made Hk Ht; cbn [node_update];
      destruct (m_update M base a h w) as [[b' l]|]; cbn [bind]; try discriminate.
    - intros H. injection H as <- _ _. apply tidy_unfold in Ht. split; [apply tidy_unfold; exact Ht|].
      intros p. split.
      + intros H. left. inversion H; subst; [constructor|econstructor; eassumption].
      + intros [H|(j & Hj & ->)]; [|destruct j; constructor]. inversion H; subst; [constructor|econstructor; eassumption].
    - inversion Hk as [|? ? Hk1 Hk2]; subst. rewrite Hk1. cbn [bind]. apply tidy_unfold in Ht as (Hn & HF).
      destruct (dict_get ch k) as [old|] eqn:E; cbn beta iota.
      + destruct (node_update M fresh binary c old a h w) as [[[child' r'] more]|] eqn:Hu; cbn [bind]; [|discriminate].
        intros H. injection H as <- _ _. destruct (IH _ _ _ _ _ _ _ Hk2 (get_tidy _ _ _ HF E) Hu) as (H1 & H2).
        split; [apply tidy_unfold; split; [apply dict_set_nodup, Hn|apply tidy_set; assumption]|].
        apply (path_set base blp clp lp) with (child := old); [left; exact E|exact H2].
      + destruct (node_update M fresh binary c (new_node fresh) a h w) as [[[child' r'] more]|] eqn:Hu; cbn [bind]; [|discriminate].
        intros H. injection H as <- _ _. destruct (IH _ _ _ _ _ _ _ Hk2 new_tidy Hu) as (H1 & H2).
        split; [apply tidy_unfold; split; [apply dict_set_nodup, Hn|apply tidy_set; assumption]|].
        apply (path_set base blp clp lp) with (child := new_node fresh); [right; split; [exact E|apply new_path]|exact H2].
  Qed.

  Lemma node_predict_paths c : forall n a h n' r made, Forall (fun k => child_key binary k = Ok k) c -> tidy n ->
    node_log_predict M fresh binary c n a h = Ok (n', r, made) ->
    tidy n' /\ forall p, path n' p <-> path n p \/ prefix p c.
  Proof.
    induction c as [|k c IH]; intros [base blp clp lp ch] a h n' r made Hk Ht; cbn [node_log_predict];
      destruct (m_logp M base a h) as [l|]; cbn [bind]; try discriminate.
    - intros H. injection H as <- _ _. split; [exact Ht|].
      intros p. split; [tauto|]. intros [H|(j & Hj & ->)]; [exact H|destruct j; constructor].
    - inversion Hk as [|? ? Hk1 Hk2]; subst. rewrite Hk1. cbn [bind]. apply tidy_unfold in Ht as (Hn & HF).
      destruct (dict_get ch k) as [old|] eqn:E; cbn beta iota.
      + destruct (node_log_predict M fresh binary c old a h) as [[[child' r'] more]|] eqn:Hu; cbn [bind]; [|discriminate].
        intros H. injection H as <- _ _. destruct (IH _ _ _ _ _ _ Hk2 (get_tidy _ _ _ HF E) Hu) as (H1 & H2).
        split; [apply tidy_unfold; split; [apply dict_set_nodup, Hn|apply tidy_set; assumption]|].
        apply (path_set base blp clp lp) with (child := old); [left; exact E|exact H2].
      + destruct (node_log_predict M fresh binary c (new_node fresh) a h) as [[[child' r'] more]|] eqn:Hu; cbn [bind]; [|discriminate].
        intros H. injection H as <- _ _. destruct (IH _ _ _ _ _ _ Hk2 new_tidy Hu) as (H1 & H2).
        split; [apply tidy_unfold; split; [apply dict_set_nodup, Hn|apply tidy_set; assumption]|].
        apply (path_set base blp clp lp) with (child := new_node fresh); [right; split; [exact E|apply new_path]|exact H2].
  Qed.

  Lemma recent_prefix d h p : prefix p (recent d h) <-> In p (map (fun j => recent j h) (seq 0 (d + 1))).
  Proof.
    assert (G : forall j, j <= d -> firstn j (recent d h) = recent j h).
    { intros j Hj. unfold recent. rewrite firstn_firstn, Nat.min_l by exact Hj.
      rewrite !firstn_app. f_equal. rewrite !firstn_repeat. f_equal. lia. }
    unfold prefix. rewrite recent_length. split.
    - intros (j & Hj & ->). apply in_map_iff. exists j. split; [symmetry; apply G, Hj|]. apply in_seq. lia.
    - intros H. apply in_map_iff in H as (j & <- & Hj). apply in_seq in Hj. exists j. split; [lia|]. symmetry. apply G. lia.
  Qed.

  Lemma recent_keys d h : Forall (fun k => child_key binary k = Ok k) h -> Forall (fun k => child_key binary k = Ok k) (recent d h).
  Proof.
    intros H. unfold recent. apply Forall_forall. intros x Hx.
    assert (Hin : In x (rev h ++ repeat 0%Z d)) by (rewrite <- (firstn_skipn d); apply in_or_app; left; exact Hx).
    apply in_app_or in Hin as [Hin|Hin].
    - rewrite Forall_forall in H. apply H, in_rev, Hin.
    - apply repeat_spec in Hin as ->. destruct binary; reflexivity.
  Qed.

  Lemma ctw_op d o s s' r : 0 < d -> ctw_depth s = Z.of_nat d -> tidy (ctw_tree s) ->
    Forall (fun k => child_key binary k = Ok k) (op_hist o) ->
    do_op (ctw_update M fresh binary) (ctw_log_predict M fresh binary) s o = Ok (s', r) ->
    ctw_depth s' = Z.of_nat d /\ tidy (ctw_tree s') /\
    forall p, path (ctw_tree s') p <-> path (ctw_tree s) p \/ In p (contexts d [o]).
  Proof.
    intros Hd Hsd Ht Hk. assert (Hc : forall p, In p (contexts d [o]) <-> prefix p (recent d (op_hist o))).
    { intros p. rewrite recent_prefix. unfold contexts. cbn [flat_map]. rewrite app_nil_r. reflexivity. }
    apply (recent_keys d) in Hk.
    destruct o as [a h w|a h]; cbn [do_op]; unfold ctw_update, ctw_log_predict, ctw_update_with, ctw_log_predict_with;
      rewrite Hsd, mkcontext_recent by exact Hd; cbn [op_hist] in *.
    - destruct (node_update _ _ _ _ _ _ _ _) as [[[t r'] made]|] eqn:E; cbn [bind]; [|discriminate].
      intros H. injection H as <- _. cbn [ctw_depth ctw_tree]. destruct (node_update_paths _ _ _ _ _ _ _ _ Hk Ht E) as (H1 & H2).
      split; [reflexivity|]. split; [exact H1|]. intros p. rewrite Hc. apply H2.
    - destruct (node_log_predict _ _ _ _ _ _ _) as [[[t r'] made]|] eqn:E; cbn [bind]; [|discriminate].
      intros H. injection H as <- _. cbn [ctw_depth ctw_tree]. destruct (node_predict_paths _ _ _ _ _ _ _ Hk Ht E) as (H1 & H2).
      split; [reflexivity|]. split; [exact H1|]. intros p. rewrite Hc. apply H2.
  Qed.

  Lemma ctw_exec d ops : 0 < d -> forall s s' rs, ctw_depth s = Z.of_nat d -> tidy (ctw_tree s) ->
    Forall (fun o => Forall (fun k => child_key binary k = Ok k) (op_hist o)) ops ->
    exec (ctw_update M fresh binary) (ctw_log_predict M fresh binary) s ops = Ok (s', rs) ->
    tidy (ctw_tree s') /\ forall p, path (ctw_tree s') p <-> path (ctw_tree s) p \/ In p (contexts d ops).
  Proof.
    intros Hd. induction ops as [|o ops IH]; intros s s' rs Hsd Ht Hk; cbn [exec].
    - intros H. injection H as <- <-. split; [exact Ht|]. intros p. cbn. tauto.
    - destruct (do_op _ _ s o) as [[s1 r1]|] eqn:E; cbn [bind]; [|discriminate].
      destruct (exec _ _ s1 ops) as [[s2 r2]|] eqn:E2; cbn [bind]; [|discriminate].
      intros H. injection H as <- <-. inversion Hk; subst.
      destruct (ctw_op d o s s1 r1 Hd Hsd Ht ltac:(assumption) E) as (Hd1 & Ht1 & Hp1).
      destruct (IH s1 s2 r2 Hd1 Ht1 ltac:(assumption) E2) as (Ht2 & Hp2). split; [exact Ht2|].
      intros p. rewrite Hp2, Hp1. unfold contexts. cbn [flat_map]. rewrite app_nil_r, in_app_iff. tauto.
  Qed.

  Lemma ctw_size_contexts d ops s rs : 0 < d ->
    Forall (fun o => Forall (fun k => child_key binary k = Ok k) (op_hist o)) ops ->
    exec (ctw_update M fresh binary) (ctw_log_predict M fresh binary) (ctw_init fresh (Z.of_nat d)) ops = Ok (s, rs) ->
    ctw_size s = distinct ([] :: contexts d ops).
  Proof.
    intros Hd Hk H. destruct (ctw_size_nodes M fresh binary d ops (ctw_init fresh (Z.of_nat d)) _ _ Hd eq_refl eq_refl H) as (-> & _).
    destruct (ctw_exec d ops Hd (ctw_init fresh (Z.of_nat d)) _ _ eq_refl new_tidy Hk H) as (Ht & Hp). rewrite <- paths_length. unfold distinct.
    assert (Hin : forall p, In p (paths (ctw_tree s)) <-> In p (nodup (list_eq_dec Z.eq_dec) ([] :: contexts d ops))).
    { intros p. rewrite nodup_In, paths_path, Hp by exact Ht. cbn [In]. split; intros [Hx|Hx]; auto.
      - apply new_path in Hx. auto.
      - subst p. left. constructor. }
    apply Nat.le_antisymm; (apply NoDup_incl_length; [|intros p; apply Hin]); [apply paths_nodup, Ht|apply NoDup_nodup].
  Qed.

  (** All words of at most [d] letters. *)
  Fixpoint words (K : list Z) (d : nat) : list (list Z) :=
    match d with O => [[]] | Datatypes.S d' => [] :: flat_map (fun k => map (cons k) (words K d')) K end.
  Lemma words_length K d : 2 <= length K -> (length K - 1) * length (words K d) + 1 = length K ^ (d + 1).
  Proof.
    intros H2. induction d as [|d IH]; cbn [words length Nat.pow Nat.add]; [nia|].
    replace (length (flat_map (fun k => map (cons k) (words K d)) K)) with (length K * length (words K d)).
    2:{ generalize (words K d) as W. clear. induction K as [|k K IH]; intros W; [reflexivity|]. cbn [flat_map length]. rewrite app_length, map_length, <- IH. cbn. reflexivity. }
    rewrite <- IH. destruct (length K) as [|n]; [lia|]. cbn [Nat.sub]. rewrite Nat.sub_0_r. nia.
  Qed.
  Lemma in_words K d : forall p, length p <= d -> incl p K -> In p (words K d).
  Proof.
    induction d as [|d IH]; intros [|k p] Hl Hi; cbn [words length] in *; try (left; reflexivity); [lia|].
    right. apply in_flat_map. exists k. split; [apply Hi; left; reflexivity|]. apply in_map, IH; [lia|]. intros x Hx. apply Hi. right. exact Hx.
  Qed.

  Lemma ctw_size_most d ops s rs K : 0 < d -> 2 <= length K -> In 0%Z K ->
    (forall k, In k K -> child_key binary k = Ok k) -> Forall (fun o => incl (op_hist o) K) ops ->
    exec (ctw_update M fresh binary) (ctw_log_predict M fresh binary) (ctw_init fresh (Z.of_nat d)) ops = Ok (s, rs) ->
    (length K - 1) * ctw_size s + 1 <= length K ^ (d + 1).
  Proof.
    intros Hd H2 H0 HK Hops H. rewrite (ctw_size_contexts d ops s rs Hd) with (2 := H).
    - rewrite <- (words_length K d H2). apply Nat.add_le_mono_r, Nat.mul_le_mono_l. unfold distinct.
      apply NoDup_incl_length; [apply NoDup_nodup|]. intros p Hp. apply nodup_In in Hp. destruct Hp as [<-|Hp].
      { apply in_words; [cbn; lia|]. intros x []. }
      unfold contexts in Hp. apply in_flat_map in Hp as (o & Ho & Hp). apply in_map_iff in Hp as (j & <- & Hj). apply in_seq in Hj.
      apply in_words; [rewrite recent_length; lia|]. apply recent_incl; [exact H0|]. rewrite Forall_forall in Hops. apply Hops, Ho.
    - eapply Forall_impl; [|exact Hops]. intros o Ho. apply Forall_forall. intros k Hk. apply HK, Ho, Hk.
  Qed.
End ctw.
