From Coq Require Import Lra.
From Verif Require Import Spec.Sizes.
From Verif Require Import Proofs.PyFacts Proofs.ProbFacts Proofs.PTWFacts Proofs.FMNFacts Proofs.StoreFacts Proofs.UniformFacts Proofs.SizesFacts.
Open Scope nat_scope.

Lemma mapM_length {X Y} (f : X -> result Y) l : forall l', mapM f l = Ok l' -> length l' = length l.
Proof.
  induction l as [|x l IH]; intros l'; cbn [mapM].
  - intros H. injection H as <-. reflexivity.
  - destruct (f x); cbn [bind]; [|discriminate]. destruct (mapM f l) as [ys|]; cbn [bind]; [|discriminate].
    intros H. injection H as <-. cbn. rewrite (IH ys eq_refl). reflexivity.
Qed.

Lemma avg_update_length {S} (M : model S) a x h w a' l : m_update (AVG_model M) a x h w = Ok (a', l) ->
  length (av_models a') = length (av_models a).
Proof.
  cbn [m_update AVG_model]. unfold avg_update. destruct (mapM _ (av_models a)) as [ms|] eqn:E; cbn [bind]; [|discriminate].
  destruct (logsumexp _); cbn [bind]; [|discriminate]. intros H. injection H as <- <-. cbn [av_models].
  eapply mapM_length; exact E.
Qed.

Lemma set_length {V} (d : dict V) k v : length (dict_set d k v) <= Datatypes.S (length d).
Proof.
  induction d as [|[k' v'] d IH]; cbn [dict_set length]; [lia|]. destruct (k' =? k)%Z; cbn [length]; lia.
Qed.

Lemma factory_length {S T} (C : store_class (S := S) T) models a : fmn_factory C models = Ok a ->
  length (av_models a) <= length (st_iter C models).
Proof.
  unfold fmn_factory, avg_init. destruct (py_div _ _); cbn [bind]; [|discriminate]. destruct (py_log _) as [l|]; cbn [bind]; [|discriminate].
  intros H. injection H as <-. cbn [av_models].
  assert (G : forall (ms : list (Z * S)) (d : dict (S * R)),
    length (fold_left (fun d kv => dict_set d (fst kv) (snd kv, l)) ms d) <= length ms + length d).
  { induction ms as [|kv ms IH]; intros d; cbn [fold_left length]; [lia|].
    specialize (IH (dict_set d (fst kv) (snd kv, l))). pose proof (set_length d (fst kv) (snd kv, l)). lia. }
  specialize (G (number_from 0 (st_iter C models)) []). rewrite number_from_length in G. cbn in G. lia.
Qed.

Section fmn.
  Context {S T : Type} (M : model S) (C : store_class (S := S) T) (B : nat -> nat) (m : nat).
  Hypothesis HB : keeps_at_most C B.
  Hypothesis Bmono : forall i j, i <= j -> B i <= B j.

  Definition finv (n : nat) (s : fmn (S := S) (T := T)) : Prop :=
    fm_t s = n /\ (exists xs, length xs = 1 + n / 2 ^ m /\ st_adds C (st_empty C) xs = Ok (fm_models s)) /\
    shaped m (pt_tree (fm_ptw s)) n /\
    Forall (fun a => length (av_models a) <= B (1 + n / 2 ^ m)) (pbases (pt_tree (fm_ptw s))).

  Lemma store_bound n s : finv n s -> length (st_iter C (fm_models s)) <= B (1 + n / 2 ^ m).
  Proof.
    intros (_ & (xs & Hl & Ha) & _). rewrite <- Hl. apply HB; [|exact Ha]. destruct xs; [discriminate Hl|discriminate].
  Qed.

  Lemma finv_init fresh s : fmn_init C m fresh = Ok s -> finv 0 s.
  Proof.
    unfold fmn_init. destruct (st_lazy_add C (st_empty C) fresh) as [t|] eqn:E; cbn [bind]; [|discriminate].
    destruct (fmn_factory C t) as [a|] eqn:Ef; cbn [bind]; [|discriminate]. intros H. injection H as <-.
    assert (Hm : 2 ^ m <> 0) by (apply Nat.pow_nonzero; lia).
    assert (Ht : st_adds C (st_empty C) [fresh] = Ok t) by (cbn [st_adds]; rewrite E; reflexivity).
    split; [reflexivity|]. rewrite Nat.div_0_l by exact Hm. split; [exists [fresh]; split; [reflexivity|exact Ht]|].
    split; [exists 0; apply shape_new|]. constructor; [|constructor]. cbn [fm_ptw].
    apply Nat.le_trans with (1 := factory_length C t a Ef). apply (HB [fresh] t); [discriminate|exact Ht].
  Qed.

  Lemma finv_step n s a h w s' l : finv n s -> m_update (FMN_model M C m) s a h w = Ok (s', l) -> finv (n + 1) s'.
  Proof.
    intros HI. pose proof (store_bound n s HI) as Hst. destruct HI as (Ht & (xs & Hl & Ha) & Hsh & HF).
    assert (Hm : 2 ^ m <> 0) by (apply Nat.pow_nonzero; lia).
    cbn [m_update FMN_model]. unfold fmn_update.
    destruct (fmn_factory C (fm_models s)) as [f|] eqn:Ef; cbn [bind]; [|discriminate].
    destruct (ptw_update (AVG_model M) m f (fm_ptw s) a h w) as [[p rv]|] eqn:Ep; cbn [bind]; [|discriminate].
    unfold ptw_update in Ep. destruct (pnode_update (AVG_model M) m f (pt_tree (fm_ptw s)) a h w) as [t'|] eqn:Eu; cbn [bind] in Ep; [|discriminate].
    injection Ep as <- _. apply factory_length in Ef.
    assert (Hup : 1 + n / 2 ^ m <= 1 + (n + 1) / 2 ^ m) by (apply Nat.add_le_mono_l, Nat.div_le_mono; lia).
    assert (HF' : Forall (fun a => length (av_models a) <= B (1 + (n + 1) / 2 ^ m)) (pbases t')).
    { destruct (bases_update _ _ _ _ _ _ _ _ Eu) as (k & new & Hnew & _ & H2).
      assert (Hsrc : Forall (fun a => length (av_models a) <= B (1 + (n + 1) / 2 ^ m)) (firstn k (pbases (pt_tree (fm_ptw s))) ++ new)).
      { apply Forall_app. split.
        - apply Forall_firstn. eapply Forall_impl; [|exact HF]. intros b Hb. etransitivity; [exact Hb|]. apply Bmono, Hup.
        - destruct Hnew as [-> | ->]; [constructor|]. constructor; [|constructor].
          etransitivity; [exact Ef|]. etransitivity; [exact Hst|]. apply Bmono, Hup. }
      revert Hsrc. induction H2 as [|b b' bs bs' (lb & Hb) H2 IH]; intros Hsrc; [constructor|].
      inversion Hsrc; subst. constructor; [|apply IH; assumption]. rewrite (avg_update_length _ _ _ _ _ _ _ Hb). assumption. }
    pose proof (shaped_update _ _ _ _ _ _ _ _ _ Hsh Eu) as Hsh'. rewrite Ht.
    destruct (Nat.eqb_spec ((n + 1) mod 2 ^ m) 0) as [E0|E0].
    - match goal with |- context [avg_map ?q] => destruct (avg_map q) as [[i x]|] end; cbn [bind]; [|discriminate].
      destruct (st_lazy_add C (fm_models s) x) as [t1|] eqn:Ea; cbn [bind]; [|discriminate].
      intros H. injection H as <- _. split; [reflexivity|]. split; [|split; [exact Hsh'|exact HF']].
      exists (xs ++ [x]). split; [|rewrite st_adds_app, Ha; cbn [bind st_adds]; rewrite Ea; reflexivity].
      rewrite app_length, Hl. cbn [length].
      assert ((n + 1) / 2 ^ m = n / 2 ^ m + 1); [|lia].
      pose proof (Nat.div_mod (n + 1) (2 ^ m) Hm) as D. rewrite E0, Nat.add_0_r in D.
      set (q := (n + 1) / 2 ^ m) in *. assert (q <> 0) by (intros ->; lia).
      enough (n / 2 ^ m = q - 1) by lia. symmetry. apply Nat.div_unique with (r := 2 ^ m - 1); [lia|].
      rewrite Nat.mul_sub_distr_l. nia.
    - intros H. injection H as <- _. split; [reflexivity|]. split; [|split; [exact Hsh'|exact HF']].
      exists xs. split; [|exact Ha]. rewrite Hl. f_equal.
      pose proof (Nat.div_mod (n + 1) (2 ^ m) Hm) as D. pose proof (Nat.mod_upper_bound (n + 1) (2 ^ m) Hm).
      set (q := (n + 1) / 2 ^ m) in *. symmetry. apply Nat.div_unique with (r := (n + 1) mod 2 ^ m - 1); lia.
  Qed.

  Lemma fmn_finv fresh evs s0 s l : fmn_init C m fresh = Ok s0 -> run (FMN_model M C m) s0 evs = Ok (s, l) -> finv (length evs) s.
  Proof.
    intros H0. apply finv_init in H0. change (length evs) with (0 + length evs). revert H0. generalize 0 as n.
    revert s0 l. induction evs as [|e evs IH]; intros s0 l n H0; cbn [run].
    - intros H. injection H as <- <-. cbn. rewrite Nat.add_0_r. exact H0.
    - destruct (m_update _ s0 (ev_sym e) (ev_hist e) (ev_wt e)) as [[s1 l1]|] eqn:E; cbn [bind]; [|discriminate].
      destruct (run _ s1 evs) as [[s2 l2]|] eqn:E2; cbn [bind]; [|discriminate].
      intros H. injection H as <- <-. cbn [length]. replace (n + Datatypes.S (length evs)) with (n + 1 + length evs) by lia.
      eapply IH; [|exact E2]. eapply finv_step; eassumption.
  Qed.

  Lemma fmn_memory fresh evs s0 s l : fmn_init C m fresh = Ok s0 -> run (FMN_model M C m) s0 evs = Ok (s, l) ->
    length (fmn_bases C s) <= (2 + ones ((length evs - 1) / 2 ^ m)) * B (1 + length evs / 2 ^ m).
  Proof.
    intros H0 Hr. pose proof (fmn_finv _ _ _ _ _ H0 Hr) as HI. pose proof (store_bound _ _ HI) as Hst.
    destruct HI as (_ & _ & Hsh & HF). apply shaped_count in Hsh. unfold fmn_bases. rewrite app_length.
    set (b := B (1 + length evs / 2 ^ m)) in *.
    assert (G : forall l : list (avg S), Forall (fun a => length (av_models a) <= b) l ->
      length (concat (map (fun a => map (fun kv => fst (snd kv)) (av_models a)) l)) <= length l * b).
    { induction 1 as [|a l' Ha _ IH]; cbn [map concat length]; [lia|]. rewrite app_length, map_length. cbn. lia. }
    specialize (G _ HF). rewrite Hsh in G. cbn [Nat.mul Nat.add] in *. lia.
  Qed.
End fmn.

Lemma logstore_keeps S : keeps_at_most (LogStore_class S) (fun k => Nat.log2 k + 1).
Proof.
  intros xs t Hne H. rewrite ls_adds in H. injection H as <-. cbn [st_iter LogStore_class]. unfold ls_iter. rewrite map_length.
  rewrite (logstore_length xs Hne). lia.
Qed.

Lemma uniform_keeps S : keeps_at_most (LogStoreUniform_class S) (fun k => Nat.log2 k + 2).
Proof.
  intros xs t Hne H. rewrite us_adds_eq in H. destruct (uniform_items xs Hne) as (s' & idx & j & nw & Hs' & Hit & _ & Hi0 & _ & _ & _ & Hl & _).
  change (st_empty (LogStoreUniform_class S)) with (@us_init S) in H. rewrite H in Hs'. injection Hs' as <-.
  cbn [st_iter LogStoreUniform_class]. unfold us_iter. rewrite rev_length. apply (f_equal (@length _)) in Hit. rewrite !map_length in Hit. lia.
Qed.

Lemma log_store_bound n m c : (2 + ones ((n - 1) / 2 ^ m)) * (Nat.log2 (1 + n / 2 ^ m) + c) <=
  (Nat.log2 (1 + n / 2 ^ m) + 3) * (Nat.log2 (1 + n / 2 ^ m) + c).
Proof.
  apply Nat.mul_le_mono_r. pose proof (ones_log ((n - 1) / 2 ^ m)).
  assert (Nat.log2 ((n - 1) / 2 ^ m) <= Nat.log2 (1 + n / 2 ^ m)); [|lia].
  apply Nat.log2_le_mono. apply Nat.le_trans with (n / 2 ^ m); [|lia].
  apply Nat.div_le_mono; [apply Nat.pow_nonzero; lia|lia].
Qed.

Lemma fmn_logstore_memory S (M : model S) m fresh evs s0 s l : fmn_init (LogStore_class S) m fresh = Ok s0 ->
  run (FMN_model M (LogStore_class S) m) s0 evs = Ok (s, l) ->
  length (fmn_bases (LogStore_class S) s) <= (Nat.log2 (1 + length evs / 2 ^ m) + 3) * (Nat.log2 (1 + length evs / 2 ^ m) + 1).
Proof.
  intros H0 Hr. etransitivity; [|apply log_store_bound].
  apply (fmn_memory M (LogStore_class S) _ m (logstore_keeps S)) with (2 := H0) (3 := Hr).
  intros i j Hij. apply Nat.add_le_mono_r, Nat.log2_le_mono, Hij.
Qed.

Lemma fmn_uniform_memory S (M : model S) m fresh evs s0 s l : fmn_init (LogStoreUniform_class S) m fresh = Ok s0 ->
  run (FMN_model M (LogStoreUniform_class S) m) s0 evs = Ok (s, l) ->
  length (fmn_bases (LogStoreUniform_class S) s) <= (Nat.log2 (1 + length evs / 2 ^ m) + 3) * (Nat.log2 (1 + length evs / 2 ^ m) + 2).
Proof.
  intros H0 Hr. etransitivity; [|apply log_store_bound].
  apply (fmn_memory M (LogStoreUniform_class S) _ m (uniform_keeps S)) with (2 := H0) (3 := Hr).
  intros i j Hij. apply Nat.add_le_mono_r, Nat.log2_le_mono, Hij.
Qed.
