(** modelfast.py's C tree: an instance of the engine, safe for symbols of the alphabet, returning
    what CTW over KT returns. *)
From Coq Require Import Arith FunctionalExtensionality Lra.
From Verif Require Import Model.ModelFast Model.KT Spec.Objects.
From Verif Require Import Proofs.RealFacts Proofs.PyFacts Proofs.LogsumexpFacts Proofs.KTFacts Proofs.CTWTop.
From Verif Require Import Proofs.HeapFacts Proofs.HeapEngine Proofs.HeapUpdate Proofs.HeapWorld Proofs.HeapFree Proofs.ObjectFacts.
From Verif Require Import Proofs.CTWKTFacts Proofs.CTWShare Proofs.CTWKTShare.
Open Scope R_scope.

Definition ckey (n : nat) (c : Z) : result nat :=
  do (k, _) <- c_index (repeat tt n) (to_char c); Ok k.

Lemma nth_error_repeat_lt {A} (x : A) n k : (k < n)%nat -> nth_error (repeat x n) k = Some x.
Proof. revert k. induction n; intros [|k] H; cbn; try lia; [reflexivity|]. apply IHn. lia. Qed.

Lemma ckey_lt n c k : ckey n c = Ok k -> (k < n)%nat.
Proof.
  unfold ckey, c_index. destruct (0 <=? to_char c)%Z; [|discriminate].
  destruct (nth_error (repeat tt n) (Z.to_nat (to_char c))) eqn:E; [|discriminate].
  intros H. injection H as <-. rewrite <- (repeat_length tt n). apply nth_error_Some. congruence.
Qed.

Lemma c_index_key {A} (l : list A) b : c_index l (to_char b) =
  do k <- ckey (length l) b; match nth_error l k with Some x => Ok (k, x) | None => Err OutOfBounds end.
Proof.
  unfold ckey, c_index. destruct (0 <=? to_char b)%Z; [|reflexivity].
  set (k := Z.to_nat (to_char b)). destruct (Nat.lt_ge_cases k (length l)) as [L|L].
  - rewrite (nth_error_repeat_lt tt _ _ L). cbn [bind]. destruct (nth_error l k); reflexivity.
  - rewrite (proj2 (nth_error_None l k) L). rewrite (proj2 (nth_error_None (repeat tt (length l)) k)) by (rewrite repeat_length; exact L).
    reflexivity.
Qed.

Lemma c_logsumexp2_is a b : c_logsumexp2 a b = logsumexp2 a b.
Proof. rewrite c_logsumexp2_eq, logsumexp2_spec. reflexivity. Qed.

Lemma hget_grow {D} (h : heap D) x c p : hget h p = Ok c -> hget (h ++ [x]) p = Ok c.
Proof.
  rewrite !hget_at. destruct (at_ h p) as [c'|] eqn:E; [|discriminate]. intros H.
  rewrite at_app_old; [rewrite E; exact H|]. apply at_lt in E. lia.
Qed.

Lemma ctwnode_copy_is h p : ctwnode_copy h p = hcopy h p.
Proof.
  unfold ctwnode_copy, hcopy. destruct (hget h p) as [c|] eqn:E; cbn [bind halloc]; [|reflexivity].
  rewrite (hget_grow _ _ _ _ E). reflexivity.
Qed.

Section fast.
  Variable N : nat.

  Definition cd0 : kdata := CData (repeat (1 / INR N) N) 0 0 0.

  Definition fstep (a : Z) (hist : list Z) (w : R) (d : kdata) : result kdata :=
    do l <- ctwnode_base_logp (d_base d) (to_char a);
    do (i, x) <- c_index (d_base d) (to_char a);
    Ok (CData (list_set (d_base d) i (x + w)) (d_blp d + l) (d_clp d) (d_lp d)).
  Definition fpred (a : Z) (hist : list Z) (d : kdata) : result R := ctwnode_base_logp (d_base d) (to_char a).
  Definition fctx (depth a : Z) (hist : list Z) : result (list Z) :=
    do context <- py_bytes (mkcontext depth hist);
    do _ <- py_bytes [a];
    if (depth <? 0)%Z then Err OutOfBounds else Ok (rev (firstn (Z.to_nat depth) context)).

  Notation leaf := (@cleaf (list R)).
  Notation node := (@cnode_ (list R)).
  Notation pleaf := (@cpleaf (list R)).
  Notation pnode := (@cpnode (list R)).

  Lemma rev_firstn_S {A} (l : list A) n x : nth_error l n = Some x -> rev (firstn (S n) l) = x :: rev (firstn n l).
  Proof.
    revert n. induction l as [|y l IH]; intros [|n] H; try discriminate.
    - injection H as ->. reflexivity.
    - change (rev (firstn (S n) l) ++ [y] = x :: (rev (firstn n l) ++ [y])). rewrite (IH n H). reflexivity.
  Qed.

  Lemma fast_update_engine a hist w context n : (n <= length context)%nat -> forall h p,
    ctwnode_update N n h p (to_char a) w context =
    hupd cd0 N ckey (fstep a hist w) leaf node (rev (firstn n context)) h p.
  Proof.
    assert (B: forall h p, ctwnode_base_update h p (to_char a) w =
      (do c <- hget h p; do d <- fstep a hist w (c_data c); put_data h p d)).
    { intros h p. unfold ctwnode_base_update, fstep.
      destruct (hget h p) as [c|]; cbn [bind]; [|reflexivity].
      destruct (ctwnode_base_logp (d_base (c_data c)) (to_char a)) as [l|]; cbn [bind]; [|reflexivity].
      destruct (c_index (d_base (c_data c)) (to_char a)) as [[i x]|]; reflexivity. }
    revert B. generalize (fstep a hist w). intros st B.
    induction n as [|n IH]; intros Hn h p.
    - cbn [ctwnode_update firstn rev hupd]. rewrite B.
      destruct (hget h p) as [cp|] eqn:Hp; cbn [bind]; [|reflexivity].
      destruct (st (c_data cp)) as [d1|]; cbn [bind]; [|reflexivity].
      destruct (put_data h p d1) as [h1|] eqn:E1; cbn [bind]; [|reflexivity].
      destruct (put_data_get _ _ _ _ E1) as (cp' & Hp' & Hp1); rewrite Hp in Hp'; injection Hp' as <-; rewrite Hp1. reflexivity.
    - destruct (nth_error context n) as [b|] eqn:Eb; [|apply nth_error_None in Eb; lia].
      rewrite (rev_firstn_S _ _ _ Eb). cbn [ctwnode_update hupd]. rewrite B.
      destruct (hget h p) as [cp|] eqn:Hp; cbn [bind]; [|reflexivity].
      destruct (st (c_data cp)) as [d1|]; cbn [bind]; [|reflexivity].
      destruct (put_data h p d1) as [h1|] eqn:E1; cbn [bind]; [|reflexivity].
      destruct (put_data_get _ _ _ _ E1) as (cp' & Hp' & Hp1); rewrite Hp in Hp'; injection Hp' as <-; rewrite Hp1.
      assert (EI: c_index context (Z.of_nat n) = Ok (n, b)).
      { unfold c_index. rewrite (proj2 (Z.leb_le _ _)) by lia. rewrite Nat2Z.id, Eb. reflexivity. }
      rewrite EI. cbn [bind c_data c_kids]. rewrite c_index_key.
      destruct (ckey (length (c_kids cp)) b) as [k|] eqn:Ek; cbn [bind]; [|reflexivity].
      unfold getchild. rewrite Hp1. cbn [bind c_kids].
      destruct (nth_error (c_kids cp) k) as [slot|]; cbn [bind]; [|reflexivity].
      match goal with |- bind ?A _ = bind ?B _ => assert (EB: B = A) end.
      { destruct slot as [q|]; [|reflexivity]. destruct (hget h1 q) as [cc|]; cbn [bind]; [|reflexivity].
        destruct (1 <? c_rc cc)%nat; [|reflexivity]. destruct (decr h1 q) as [h2|]; cbn [bind]; [|reflexivity].
        rewrite ctwnode_copy_is. reflexivity. }
      rewrite EB. clear EB.
      match goal with |- bind ?X _ = _ => destruct X as [[h2 q]|] end; cbn [bind]; [|reflexivity].
      rewrite <- IH by lia. destruct (ctwnode_update N n h2 q (to_char a) w context) as [[h3 r]|]; cbn [bind]; [|reflexivity].
      destruct (hget h3 p) as [c3|]; cbn [bind]; [|reflexivity]. unfold cnode_. rewrite c_logsumexp2_is. reflexivity.
  Qed.

  Lemma fast_predict_engine a hist context n : (n <= length context)%nat -> forall h p,
    ctwnode_log_predict N n h p (to_char a) context =
    hprd cd0 N ckey (fpred a hist) pleaf pnode (rev (firstn n context)) h p.
  Proof.
    induction n as [|n IH]; intros Hn h p.
    - cbn [ctwnode_log_predict firstn rev hprd]. unfold fpred.
      destruct (hget h p) as [cp|]; cbn [bind]; reflexivity.
    - destruct (nth_error context n) as [b|] eqn:Eb; [|apply nth_error_None in Eb; lia].
      rewrite (rev_firstn_S _ _ _ Eb). cbn [ctwnode_log_predict hprd]. unfold fpred at 1.
      destruct (hget h p) as [cp|]; cbn [bind]; [|reflexivity].
      destruct (ctwnode_base_logp (d_base (c_data cp)) (to_char a)) as [l|]; cbn [bind]; [|reflexivity].
      assert (EI: c_index context (Z.of_nat n) = Ok (n, b)).
      { unfold c_index. rewrite (proj2 (Z.leb_le _ _)) by lia. rewrite Nat2Z.id, Eb. reflexivity. }
      rewrite EI. cbn [bind]. rewrite c_index_key.
      destruct (ckey (length (c_kids cp)) b) as [k|] eqn:Ek; cbn [bind]; [|reflexivity].
      destruct (nth_error (c_kids cp) k) as [slot|]; cbn [bind]; [|reflexivity].
      match goal with |- bind ?A _ = bind ?B _ => assert (EB: B = A) by (destruct slot; reflexivity) end.
      rewrite EB. clear EB.
      match goal with |- bind ?X _ = _ => destruct X as [[h2 q]|] end; cbn [bind]; [|reflexivity].
      rewrite <- IH by lia. destruct (ctwnode_log_predict N n h2 q (to_char a) context) as [[h3 r]|]; cbn [bind]; [|reflexivity].
      unfold cpnode. rewrite c_logsumexp2_is. reflexivity.
  Qed.

  Definition cproj (w : cworld) : heap kdata * list (option (Z * ptr)) := (cw_heap w, cw_objs w).

  Definition feng := eng (D := kdata) cd0 N ckey fctx fstep leaf node fpred pleaf pnode cdel.
  Definition fsep := sep (D := kdata) cd0 N ckey fctx fstep leaf node fpred pleaf pnode.

  Lemma mkcontext_long depth hist : (0 <= depth)%Z -> (Z.to_nat depth <= length (mkcontext depth hist))%nat.
  Proof.
    intros H. destruct (Z.eq_dec depth 0) as [->|Hd]; [cbn [Z.to_nat]; lia|].
    rewrite <- (Z2Nat.id depth) at 2 by lia. rewrite mkcontext_length; lia.
  Qed.

  Lemma py_bytes_same l l' : py_bytes l = Ok l' -> l' = l.
  Proof. unfold py_bytes. destruct (forallb _ l); [intros H; injection H; auto|discriminate]. Qed.

  Lemma fast_eng ops w :
    rrel (fun x y => cproj (fst x) = fst y /\ snd x = snd y)
      (orun (cw_new N) cw_copy cw_del (cw_update N) (cw_log_predict N) w ops)
      (feng (cproj w) ops).
  Proof.
    unfold feng, eng.
    assert (OP: forall w i, cobj w i = eobj (cproj w) i) by reflexivity.
    apply (orun_sim (fun w x => cproj w = x)) with (okn := fun _ => True) (oku := fun _ _ _ => True) (okp := fun _ _ => True).
    - intros w1 w2 d <- _. reflexivity.
    - intros w1 w2 i <-. unfold cw_copy, ecopy. rewrite OP. destruct (eobj (cproj w1) i) as [[d p]|]; cbn [bind]; [|reflexivity].
      rewrite ctwnode_copy_is. change (cw_heap w1) with (fst (cproj w1)).
      destruct (hcopy (fst (cproj w1)) p) as [[h q]|]; reflexivity.
    - intros w1 w2 i <-. unfold cw_del, edel. rewrite OP. destruct (eobj (cproj w1) i) as [[d p]|]; cbn [bind]; [|reflexivity].
      unfold cdel. change (cw_heap w1) with (fst (cproj w1)).
      destruct (ctwnode_free _ (fst (cproj w1)) p) as [h|]; reflexivity.
    - intros w1 w2 i a h x <- _. unfold cw_update, eupd. rewrite OP. destruct (eobj (cproj w1) i) as [[d p]|]; cbn [bind]; [|reflexivity].
      unfold fctx. destruct (py_bytes (mkcontext d h)) as [ctx|] eqn:Eb; cbn [bind]; [|reflexivity]. apply py_bytes_same in Eb. subst ctx.
      destruct (py_bytes [a]) as [s|]; cbn [bind]; [|reflexivity]. destruct (d <? 0)%Z eqn:Ed; cbn [bind]; [reflexivity|]. apply Z.ltb_ge in Ed.
      rewrite (fast_update_engine a h x) by (apply mkcontext_long; lia). change (cw_heap w1) with (fst (cproj w1)).
      destruct (hupd _ _ _ _ _ _ _ (fst (cproj w1)) p) as [[h' r]|]; cbn; [|reflexivity]. split; reflexivity.
    - intros w1 w2 i a h <- _. unfold cw_log_predict, eprd. rewrite OP. destruct (eobj (cproj w1) i) as [[d p]|]; cbn [bind]; [|reflexivity].
      unfold fctx. destruct (py_bytes (mkcontext d h)) as [ctx|] eqn:Eb; cbn [bind]; [|reflexivity]. apply py_bytes_same in Eb. subst ctx.
      destruct (py_bytes [a]) as [s|]; cbn [bind]; [|reflexivity]. destruct (d <? 0)%Z eqn:Ed; cbn [bind]; [reflexivity|]. apply Z.ltb_ge in Ed.
      rewrite (fast_predict_engine a h) by (apply mkcontext_long; lia). change (cw_heap w1) with (fst (cproj w1)).
      destruct (hprd _ _ _ _ _ _ _ (fst (cproj w1)) p) as [[h' r]|]; cbn; [|reflexivity]. split; reflexivity.
    - reflexivity.
    - apply okop_any.
  Qed.

  (** sharing and freeing are invisible in what is returned; the memory stays in order *)
  Lemma fast_world ops :
    returned (orun (cw_new N) cw_copy cw_del (cw_update N) (cw_log_predict N) (CWorld [] []) ops) = returned (fsep [] ops) /\
    forall w rs, orun (cw_new N) cw_copy cw_del (cw_update N) (cw_log_predict N) (CWorld [] []) ops = Ok (w, rs) ->
      exists e rk, winv N true (cw_heap w) (cw_objs w) e rk.
  Proof.
    destruct (world_returned cd0 N ckey ckey_lt fctx fstep leaf node fpred pleaf pnode cdel true (cdel_ok N cd0) ops) as [E I].
    pose proof (fast_eng ops (CWorld [] [])) as H. unfold feng, cproj at 2 in H. cbn [cw_heap cw_objs] in H.
    unfold fsep. rewrite <- E. clear E.
    destruct (orun _ _ _ _ _ _ ops) as [[w rs]|], (eng _ _ _ _ _ _ _ _ _ _ _ _ ops) as [[w' rs']|]; cbn in H |- *; try contradiction.
    - destruct H as [<- <-]. split; [reflexivity|]. intros w2 rs2 Hw. injection Hw as <- <-. exact (I _ _ eq_refl).
    - subst. split; [reflexivity|discriminate].
  Qed.

  (** ** symbols of the alphabet *)
  Definition sym (a : Z) : Prop := (0 <= a < Z.of_nat N)%Z /\ (a < 128)%Z.
  Definition syms : list Z := map Z.of_nat (seq 0 N).

  Lemma syms_nodup : NoDup syms.
  Proof. apply FinFun.Injective_map_NoDup; [intros x y; lia|apply seq_NoDup]. Qed.

  Lemma syms_in a : In a syms <-> (0 <= a < Z.of_nat N)%Z.
  Proof.
    unfold syms. rewrite in_map_iff. split.
    - intros (n & <- & Hn). apply in_seq in Hn. lia.
    - intros H. exists (Z.to_nat a). rewrite in_seq. lia.
  Qed.

  Lemma to_char_sym a : sym a -> to_char a = a.
  Proof. intros [_ H]. unfold to_char. rewrite (proj2 (Z.ltb_lt _ _) H). reflexivity. Qed.

  Lemma ckey_sym a : sym a -> ckey N a = Ok (Z.to_nat a).
  Proof.
    intros H. unfold ckey, c_index. rewrite (to_char_sym a H). destruct H as [H _].
    rewrite (proj2 (Z.leb_le _ _)) by lia. rewrite nth_error_repeat_lt by lia. reflexivity.
  Qed.

  (** a C node's counts against a KT model *)
  Definition drel (d : kdata) (k : cdata kt) : Prop :=
    kt_inv syms (d_base k) /\ length (d_base d) = N /\
    (forall i, (i < N)%nat -> nth_error (d_base d) i = dict_get (kt_counts (d_base k)) (Z.of_nat i)) /\
    kt_sum (d_base k) = Rsum (d_base d) /\ d_blp k = d_blp d /\ d_clp k = d_clp d /\ d_lp k = d_lp d.

  Notation kfresh := (kt_init syms).

  Lemma Rsum_repeat x n : Rsum (repeat x n) = INR n * x.
  Proof.
    induction n as [|n IH]; [cbn; unfold Rsum; cbn; lra|]. cbn [repeat]. rewrite Rsum_cons, IH, S_INR. lra.
  Qed.

  Lemma Rsum_list_set l i x y : nth_error l i = Some x -> Rsum (list_set l i y) = Rsum l + (y - x).
  Proof.
    revert i. induction l as [|z l IH]; intros [|i] H; try discriminate; cbn [list_set]; rewrite !Rsum_cons.
    - injection H as ->. lra.
    - rewrite (IH i H). lra.
  Qed.

  Lemma drel_fresh : (0 < N)%nat -> drel cd0 (d0 kfresh).
  Proof.
    intros HN. assert (NE: syms <> []) by (unfold syms; destruct N; [lia|discriminate]).
    destruct (kt_rep_init syms syms_nodup NE) as (I & Hs & Hg).
    assert (L: length syms = N) by (unfold syms; rewrite map_length, seq_length; reflexivity).
    pose proof (lt_0_INR N HN) as HR.
    unfold drel, d0, cd0. cbn [d_base d_blp d_clp d_lp]. rewrite repeat_length. repeat split; auto; try apply I.
    - intros i Hi. rewrite nth_error_repeat_lt by exact Hi. rewrite Hg by (apply syms_in; lia).
      rewrite L, seen_nil, Rplus_0_r. reflexivity.
    - rewrite Hs, Rsum_repeat. unfold KTSpec.total. cbn [map]. rewrite Rsum_nil. field. lra.
  Qed.

  Lemma drel_logp d k a h : drel d k -> sym a ->
    exists c, c_index (d_base d) (to_char a) = Ok (Z.to_nat a, c) /\
      dict_get (kt_counts (d_base k)) a = Some c /\
      ctwnode_base_logp (d_base d) (to_char a) = Ok (ln (c / kt_sum (d_base k))) /\
      kt_log_predict (d_base k) a h = Ok (ln (c / kt_sum (d_base k))).
  Proof.
    intros (I & L & G & S & _) Ha. pose proof (to_char_sym a Ha) as Ea. destruct Ha as [Ha _].
    assert (Hi: (Z.to_nat a < N)%nat) by lia.
    pose proof (G _ Hi) as Gi. rewrite Z2Nat.id in Gi by lia.
    destruct (nth_error (d_base d) (Z.to_nat a)) as [c|] eqn:E; [|apply nth_error_None in E; lia].
    symmetry in Gi. exists c. rewrite Ea.
    assert (EI: c_index (d_base d) a = Ok (Z.to_nat a, c)).
    { unfold c_index. rewrite (proj2 (Z.leb_le _ _)) by lia. rewrite E. reflexivity. }
    pose proof (kt_inv_sum_pos _ _ I) as Hs.
    assert (Hc: 0 < c). { destruct I as (_ & P & _). apply P. apply dict_get_in in Gi. apply (in_map snd) in Gi. exact Gi. }
    split; [exact EI|]. split; [exact Gi|]. split.
    - unfold ctwnode_base_logp. rewrite EI. cbn [bind]. unfold c_log. change (fold_left Rplus (d_base d) 0) with (Rsum (d_base d)).
      rewrite <- S. destruct (Rlt_dec 0 (c / kt_sum (d_base k))) as [_|n]; [reflexivity|].
      exfalso. apply n. apply Rdiv_lt_0_compat; assumption.
    - apply (kt_logp_ok syms); assumption.
  Qed.

  Lemma drel_step d k a h w : drel d k -> sym a -> 0 <= w ->
    exists d' b' l, fstep a h w d = Ok d' /\ kt_update (d_base k) a h w = Ok (b', l) /\
      drel d' (CData b' (d_blp k + l) (d_clp k) (d_lp k)).
  Proof.
    intros Hd Ha Hw. destruct (drel_logp d k a h Hd Ha) as (c & EI & Gi & EL & _).
    destruct Hd as (I & L & G & S & E1 & E2 & E3). destruct Ha as [Ha _].
    destruct (kt_update_ok syms (d_base k) a h w c I Gi Hw) as [EU I'].
    unfold fstep. rewrite EL, EI. cbn [bind]. do 3 eexists. split; [reflexivity|]. split; [exact EU|].
    assert (EN: nth_error (d_base d) (Z.to_nat a) = Some c).
    { rewrite G by lia. rewrite Z2Nat.id by lia. exact Gi. }
    unfold drel. cbn [d_base d_blp d_clp d_lp]. split; [exact I'|]. split; [rewrite list_set_length; exact L|].
    split; [|split; [|repeat split; congruence]].
    - intros i Hi. cbn [kt_counts]. destruct (Nat.eq_dec i (Z.to_nat a)) as [->|Hne].
      + rewrite nth_error_list_set_same by lia. rewrite Z2Nat.id by lia. rewrite dict_get_set_same. reflexivity.
      + rewrite nth_error_list_set_other by congruence. rewrite dict_get_set_other by lia. apply G. exact Hi.
    - cbn [kt_sum]. rewrite (Rsum_list_set _ _ _ _ EN), S. lra.
  Qed.

  Notation tl := (tlook kfresh).
  Definition trel (f : list nat -> kdata) (t : cnode kt) : Prop := forall path, drel (f path) (tl t path).

  Lemma trel_child f base blp clp lp ch k : trel f (CNode base blp clp lp ch) -> exists child made,
    match dict_get ch (Z.of_nat k) with Some x => (x, 0%nat) | None => (new_node kfresh, 1%nat) end = (child, made) /\
    trel (fun path => f (k :: path)) child.
  Proof.
    intros T. pose proof (fun path => T (k :: path)) as Tk.
    change (forall path, drel (f (k :: path)) ((fun path => tl (CNode base blp clp lp ch) (k :: path)) path)) in Tk.
    rewrite tlook_sub in Tk. cbn [c_ch] in Tk.
    destruct (dict_get ch (Z.of_nat k)) as [x|]; do 2 eexists; (split; [reflexivity|]); exact Tk.
  Qed.

  Lemma fast_update_kt a h w ctx : sym a -> 0 <= w -> Forall sym ctx -> forall f t, trel f t ->
    exists f' r t' m, fupd N ckey (fstep a h w) leaf node ctx f = Ok (f', r) /\
      node_update KT_model kfresh false ctx t a h w = Ok (t', r, m) /\ trel f' t'.
  Proof.
    intros Ha Hw. induction ctx as [|c ctx IH]; intros Hc f t T; destruct t as [base blp clp lp ch]; pose proof (T []) as T0;
      cbn [tlook c_base c_blp c_clp c_lp] in T0;
      destruct (drel_step _ _ a h w T0 Ha Hw) as (d' & b' & l & E1 & E2 & D'); cbn [d_base d_blp d_clp d_lp] in E2, D';
      cbn [fupd node_update KT_model m_update]; rewrite E1, E2; cbn [bind].
    - destruct D' as (I & L & G & S & F1 & F2 & F3). cbn [d_base d_blp d_clp d_lp] in *.
      unfold cleaf. do 4 eexists. split; [reflexivity|]. split; [rewrite F1, F3; reflexivity|].
      intros [|k path]; [|apply (T (k :: path))]. cbn [tlook c_base c_blp c_clp c_lp].
      unfold drel. cbn [d_base d_blp d_clp d_lp]. repeat split; try assumption; try apply I; congruence.
    - inversion Hc as [|c' ctx' Hc1 Hc2]; subst. rewrite (ckey_sym c Hc1). cbn [child_key bind].
      destruct (trel_child f base blp clp lp ch (Z.to_nat c) T) as (child & made & EC & TC).
      rewrite Z2Nat.id in EC by (destruct Hc1; lia). rewrite EC.
      destruct (IH Hc2 _ child TC) as (g & r & t' & m & EF & EN & TG). rewrite EF.
      first [rewrite EN|unfold KT_model in EN; rewrite EN]. cbn [bind].
      destruct D' as (I & L & G & S & F1 & F2 & F3). cbn [d_base d_blp d_clp d_lp] in *.
      unfold cnode_. do 4 eexists. split; [reflexivity|]. split; [rewrite F1, F2, F3; reflexivity|].
      intros [|k path].
      + cbn [tlook c_base c_blp c_clp c_lp]. unfold drel. cbn [d_base d_blp d_clp d_lp].
        repeat split; try assumption; try apply I; congruence.
      + cbn [tlook c_ch]. destruct (Nat.eq_dec k (Z.to_nat c)) as [->|Hne].
        * rewrite Z2Nat.id by (destruct Hc1; lia). rewrite dict_get_set_same. apply TG.
        * rewrite dict_get_set_other by (destruct Hc1; lia). pose proof (T (k :: path)) as Tk. cbn [tlook c_ch] in Tk. exact Tk.
  Qed.

  Lemma fast_predict_kt a h ctx : sym a -> Forall sym ctx -> forall f t, trel f t ->
    exists r t' m, fprd N ckey (fpred a h) pleaf pnode ctx f = Ok r /\
      node_log_predict KT_model kfresh false ctx t a h = Ok (t', r, m) /\ trel f t'.
  Proof.
    intros Ha. induction ctx as [|c ctx IH]; intros Hc f t T; destruct t as [base blp clp lp ch]; pose proof (T []) as T0;
      cbn [tlook c_base c_blp c_clp c_lp] in T0;
      destruct (drel_logp _ _ a h T0 Ha) as (x & _ & _ & E1 & E2); cbn [d_base] in E1, E2;
      destruct T0 as (_ & _ & _ & _ & F1 & F2 & F3); cbn [d_blp d_clp d_lp] in F1, F2, F3;
      cbn [fprd node_log_predict KT_model m_logp]; unfold fpred at 1; rewrite E1, E2; cbn [bind].
    - do 3 eexists. unfold cpleaf. rewrite <- F1, <- F3. split; [reflexivity|]. split; [reflexivity|exact T].
    - inversion Hc as [|c' ctx' Hc1 Hc2]; subst. rewrite (ckey_sym c Hc1). cbn [child_key bind].
      destruct (trel_child f base (d_blp (f [])) (d_clp (f [])) (d_lp (f [])) ch (Z.to_nat c) T) as (child & made & EC & TC).
      rewrite Z2Nat.id in EC by (destruct Hc1; lia). rewrite EC.
      destruct (IH Hc2 _ child TC) as (r & t' & m & EF & EN & TG). rewrite EF.
      first [rewrite EN|unfold KT_model in EN; rewrite EN]. cbn [bind].
      do 3 eexists. unfold cpnode. split; [reflexivity|]. split; [reflexivity|].
      intros [|k path]; [exact (T [])|]. cbn [tlook c_ch]. destruct (Nat.eq_dec k (Z.to_nat c)) as [->|Hne].
      + rewrite Z2Nat.id by (destruct Hc1; lia). rewrite dict_get_set_same. apply TG.
      + rewrite dict_get_set_other by (destruct Hc1; lia). pose proof (T (k :: path)) as Tk. cbn [tlook c_ch] in Tk. exact Tk.
  Qed.

  Lemma sym_bytes l : Forall sym l -> py_bytes l = Ok l.
  Proof.
    intros H. unfold py_bytes. replace (forallb _ l) with true; [reflexivity|]. symmetry.
    apply forallb_forall. intros x Hx. rewrite Forall_forall in H. destruct (H x Hx). apply andb_true_intro.
    split; apply Z.leb_le; lia.
  Qed.

  Lemma mkcontext_sym depth hist : (0 < N)%nat -> Forall sym hist -> Forall sym (mkcontext depth hist).
  Proof.
    intros HN H. apply Forall_forall. intros x Hx. unfold mkcontext in Hx. apply in_app_iff in Hx as [Hx|Hx].
    - unfold py_repeat in Hx. apply repeat_spec in Hx. subst x. split; lia.
    - rewrite Forall_forall in H. apply H. unfold slice_from in Hx.
      rewrite <- (firstn_skipn (slice_start hist (- depth)) hist). apply in_app_iff. right. exact Hx.
  Qed.

  Lemma Forall_rev' {A} (P : A -> Prop) l : Forall P l -> Forall P (rev l).
  Proof. rewrite !Forall_forall. intros H x Hx. apply H. apply in_rev. exact Hx. Qed.
  Lemma Forall_firstn' {A} (P : A -> Prop) n l : Forall P l -> Forall P (firstn n l).
  Proof.
    rewrite !Forall_forall. intros H x Hx. apply H. rewrite <- (firstn_skipn n l). apply in_app_iff. left. exact Hx.
  Qed.

  Lemma fctx_sym depth a hist : (0 < N)%nat -> (0 <= depth)%Z -> sym a -> Forall sym hist ->
    exists ctx, fctx depth a hist = Ok ctx /\ Forall sym ctx /\ ((1 <= depth)%Z -> ctx = rev (mkcontext depth hist)).
  Proof.
    intros HN Hd Ha Hh. unfold fctx. pose proof (mkcontext_sym depth hist HN Hh) as Hm.
    rewrite (sym_bytes _ Hm). rewrite (sym_bytes [a]) by (constructor; [exact Ha|constructor]). cbn [bind].
    rewrite (proj2 (Z.ltb_ge _ _)) by lia. eexists. split; [reflexivity|]. split.
    - apply Forall_rev', Forall_firstn', Hm.
    - intros H1. rewrite firstn_all2; [reflexivity|]. rewrite <- (Z2Nat.id depth) at 1 by lia.
      rewrite mkcontext_length; lia.
  Qed.

  (** calls that keep to the alphabet *)
  Definition in_alphabet (dmin : Z) : oop -> Prop :=
    okop (fun d => (dmin <= d)%Z) (fun a h w => sym a /\ Forall sym h /\ 0 <= w) (fun a h => sym a /\ Forall sym h).

  Lemma fsep_ctw ops : (0 < N)%nat -> Forall (in_alphabet 1) ops ->
    returned (fsep [] ops) =
    returned (deep_run (ctw_init kfresh) (ctw_update KT_model kfresh false) (ctw_log_predict KT_model kfresh false) ops).
  Proof.
    intros HN. unfold fsep, sep. fold (deep_run (fnew cd0) (fup (D := kdata) N ckey fctx fstep leaf node) (fpr (D := kdata) N ckey fctx fpred pleaf pnode) ops).
    apply (deep_sim (fun (o : Z * (list nat -> kdata)) (s : ctw) => (1 <= fst o)%Z /\ fst o = ctw_depth s /\ trel (snd o) (ctw_tree s))).
    - intros d Hd. cbn. split; [exact Hd|]. split; [reflexivity|]. intros path. rewrite tlook_new. apply drel_fresh. exact HN.
    - intros [d f] s a h x (Hd & Ed & T) (Ha & Hh & Hx). cbn [fst snd] in *. subst d.
      destruct (fctx_sym (ctw_depth s) a h HN ltac:(lia) Ha Hh) as (ctx & Ec & Fc & Rc). specialize (Rc Hd).
      unfold fup. rewrite Ec. cbn [bind].
      destruct (fast_update_kt a h x ctx Ha Hx Fc f (ctw_tree s) T) as (f' & r & t' & m & E1 & E2 & T'). rewrite E1. cbn [bind].
      unfold ctw_update, ctw_update_with. rewrite <- Rc, E2. cbn. split; [|reflexivity]. cbn. auto.
    - intros [d f] s a h (Hd & Ed & T) (Ha & Hh). cbn [fst snd] in *. subst d.
      destruct (fctx_sym (ctw_depth s) a h HN ltac:(lia) Ha Hh) as (ctx & Ec & Fc & Rc). specialize (Rc Hd).
      unfold fpr. rewrite Ec. cbn [bind].
      destruct (fast_predict_kt a h ctx Ha Fc f (ctw_tree s) T) as (r & t' & m & E1 & E2 & T'). rewrite E1. cbn [bind].
      unfold ctw_log_predict, ctw_log_predict_with. rewrite <- Rc, E2. cbn. split; [|reflexivity]. cbn. auto.
  Qed.

  (** C CTW_KT over an alphabet of N symbols returns what CTW over KT models returns. *)
  Theorem fast_is_ctw ops : (0 < N)%nat -> Forall (in_alphabet 1) ops ->
    returned (orun (cw_new N) cw_copy cw_del (cw_update N) (cw_log_predict N) (CWorld [] []) ops) =
    returned (deep_run (ctw_init kfresh) (ctw_update KT_model kfresh false) (ctw_log_predict KT_model kfresh false) ops).
  Proof. intros HN Ho. rewrite (proj1 (fast_world ops)). apply fsep_ctw; assumption. Qed.

  (** no undefined behaviour *)
  Theorem fast_safe ops : (0 < N)%nat -> Forall (in_alphabet 0) ops ->
    match returned (orun (cw_new N) cw_copy cw_del (cw_update N) (cw_log_predict N) (CWorld [] []) ops) with
    | Ok _ => True
    | Err e => e = NameError
    end.
  Proof.
    intros HN. rewrite (proj1 (fast_world ops)). unfold fsep.
    set (P := fun o : option (Z * (list nat -> kdata)) =>
      match o with None => True | Some (d, f) => (0 <= d)%Z /\ exists t, trel f t end).
    assert (G: forall ops w, Forall P w -> Forall (in_alphabet 0) ops ->
      match returned (sep cd0 N ckey fctx fstep leaf node fpred pleaf pnode w ops) with Ok _ => True | Err e => e = NameError end).
    { clear ops. induction ops as [|o ops IH]; intros w Hw Ho; [exact I|]. inversion Ho as [|o' ops' H1 H2]; subst.
      assert (GET: forall i, match dget w i with Ok (d, f) => (0 <= d)%Z /\ exists t, trel f t | Err e => e = NameError end).
      { intros i. unfold dget. destruct (nth_error w i) as [[[d f]|]|] eqn:E; try reflexivity.
        apply nth_error_In in E. rewrite Forall_forall in Hw. exact (Hw _ E). }
      assert (SET: forall i x, P x -> Forall P (list_set w i x)).
      { clear -Hw. intros i x Hx. revert i. induction Hw; intros [|i]; cbn; constructor; auto. }
      assert (APP: forall x, P x -> Forall P (w ++ [x])).
      { intros x Hx. apply Forall_app. split; [exact Hw|constructor; [exact Hx|constructor]]. }
      destruct o as [d|i|i|i a h x|i a h]; unfold sep; cbn [orun]; fold (sep cd0 N ckey fctx fstep leaf node fpred pleaf pnode).
      - cbn [deep_new bind]. apply IH; [|exact H2]. apply APP. split; [exact H1|]. exists (new_node kfresh).
        intros path. rewrite tlook_new. apply drel_fresh. exact HN.
      - unfold deep_copy. specialize (GET i). destruct (dget w i) as [[d f]|e]; cbn [bind]; [|exact GET].
        apply IH; [|exact H2]. apply APP. exact GET.
      - unfold deep_del. specialize (GET i). destruct (dget w i) as [[d f]|e]; cbn [bind]; [|exact GET].
        apply IH; [|exact H2]. apply SET. exact I.
      - unfold deep_update. specialize (GET i). destruct (dget w i) as [[d f]|e]; cbn [bind]; [|exact GET].
        destruct GET as (Hd & t & T). destruct H1 as (Ha & Hh & Hx).
        destruct (fctx_sym d a h HN Hd Ha Hh) as (ctx & Ec & Fc & _). unfold fup. rewrite Ec. cbn [bind].
        destruct (fast_update_kt a h x ctx Ha Hx Fc f t T) as (f' & r & t' & m & E1 & E2 & T'). rewrite E1. cbn [bind].
        specialize (IH (list_set w i (Some (d, f'))) (SET i (Some (d, f')) (conj Hd (ex_intro _ t' T'))) H2).
        destruct (sep _ _ _ _ _ _ _ _ _ _ _ ops) as [[w' rs]|e]; cbn in *; auto.
      - unfold deep_predict. specialize (GET i). destruct (dget w i) as [[d f]|e]; cbn [bind]; [|exact GET].
        destruct GET as (Hd & t & T). destruct H1 as (Ha & Hh).
        destruct (fctx_sym d a h HN Hd Ha Hh) as (ctx & Ec & Fc & _). unfold fpr. rewrite Ec. cbn [bind].
        destruct (fast_predict_kt a h ctx Ha Fc f t T) as (r & t' & m & E1 & E2 & T'). rewrite E1. cbn [bind].
        specialize (IH (list_set w i (Some (d, f))) (SET i (Some (d, f)) (conj Hd (ex_intro _ t T))) H2).
        destruct (sep _ _ _ _ _ _ _ _ _ _ _ ops) as [[w' rs]|e]; cbn in *; auto. }
    intros Ho. apply (G ops []); [constructor|exact Ho].
  Qed.

  (** memory is given back *)
  Theorem fast_no_leak ops w rs :
    orun (cw_new N) cw_copy cw_del (cw_update N) (cw_log_predict N) (CWorld [] []) ops = Ok (w, rs) ->
    (forall i, match nth_error (cw_objs w) i with Some (Some _) => False | _ => True end) ->
    forall p, match nth_error (cw_heap w) p with Some (Some _) => False | _ => True end.
  Proof.
    intros H Hd p. destruct (proj2 (fast_world ops) w rs H) as (e & rk & I).
    assert (E0: forall x, e x = 0%Z).
    { intros x. pose proof (wi_nonneg _ _ _ _ _ _ I x). destruct (Z_le_gt_dec 1 (e x)) as [L|L]; [|lia].
      destruct (wi_all _ _ _ _ _ _ I eq_refl x L) as (i & d & E). specialize (Hd i). rewrite E in Hd. contradiction. }
    assert (W: wf0 N (cw_heap w) (fun _ => 0%Z) rk) by (eapply wf0_ext_eq; [exact E0|apply I]).
    pose proof (no_leak N (cw_heap w) rk W (wi_pos _ _ _ _ _ _ I) p) as L. unfold at_ in L.
    destruct (nth_error (cw_heap w) p) as [[c|]|]; [discriminate|exact Logic.I|exact Logic.I].
  Qed.
End fast.
