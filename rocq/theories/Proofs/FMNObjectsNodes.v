From Coq Require Import Lra.
From Verif Require Import Spec.FMNObjectsSpec Proofs.PyFacts Proofs.FMNFacts Proofs.CopiesFacts Proofs.CopiesUpdate Proofs.FMNObjectsFacts.
Open Scope R_scope.

Section nodes.
  Context {S : Type} (M : model S).
  Notation fheap := (fheap S).
  Variable mh : nat.

  (** the node at [p] with its Averager and its right children *)
  Inductive nrep (h : fheap) : addr -> pnode (avg S) -> list addr -> Prop :=
  | nr_leaf p b ht ct blp llp lp A fp : nth_error h p = Some (CNode b ht ct blp llp lp None) -> arep h b A fp -> nrep h p (PNode A ht ct blp llp lp None) (p :: fp)
  | nr_right p b ht ct blp llp lp A fp r n fpr : nth_error h p = Some (CNode b ht ct blp llp lp (Some r)) -> arep h b A fp -> nrep h r n fpr -> nrep h p (PNode A ht ct blp llp lp (Some n)) (p :: fp ++ fpr).

  Lemma nrep_frame h p n fp : nrep h p n fp -> forall h', (forall q, In q fp -> nth_error h' q = nth_error h q) -> nrep h' p n fp.
  Proof.
    induction 1 as [p b ht ct blp llp lp A fp H HA|p b ht ct blp llp lp A fp r n fpr H HA HN IH]; intros h' F.
    - apply nr_leaf with b; [rewrite F; [exact H|now left]|]. apply arep_frame with (1 := HA). intros q Hq. apply F. now right.
    - apply nr_right with b r; [rewrite F; [exact H|now left]|apply arep_frame with (1 := HA); intros q Hq; apply F; right; apply in_or_app; now left|]. apply IH. intros q Hq. apply F. right. apply in_or_app. now right.
  Qed.
  Lemma nrep_bound h p n fp : nrep h p n fp -> forall q, In q fp -> (q < length h)%nat.
  Proof.
    induction 1 as [p b ht ct blp llp lp A fp H HA|p b ht ct blp llp lp A fp r n fpr H HA HN IH]; intros q [<-|Hq].
    - apply nth_error_Some. now rewrite H.
    - exact (arep_bound _ _ _ _ HA q Hq).
    - apply nth_error_Some. now rewrite H.
    - apply in_app_or in Hq as [Hq|Hq]; [exact (arep_bound _ _ _ _ HA q Hq)|auto].
  Qed.
  Lemma nrep_get h p n fp : nrep h p n fp -> exists b r, get_node h p = Ok (Node b (p_height n) (p_count n) (p_blp n) (p_llp n) (p_lp n) r) /\ complete (Node b (p_height n) (p_count n) (p_blp n) (p_llp n) (p_lp n) r) = partition_is_complete n.
  Proof. intros H. inversion H; subst; do 2 eexists; unfold get_node, fget; rewrite H0; split; reflexivity. Qed.

  (** what an update leaves as it was *)
  Definition grown (h h' : fheap) (fp fp' : list addr) : Prop := NoDup fp' /\ (forall q, In q fp' -> In q fp \/ (length h <= q)%nat) /\ (length h <= length h')%nat /\
    (forall q, (q < length h)%nat -> ~ In q fp -> nth_error h' q = nth_error h q).

  Lemma node_same (h : fheap) p c c' : nth_error h p = Some c -> get_node (fput h p c') p = (match c' with CNode b ht ct blp llp lp r => Ok (Node b ht ct blp llp lp r) | _ => Err AttributeError end).
  Proof. intros H. unfold get_node, fget, fput. rewrite (set_same _ _ _ _ H). reflexivity. Qed.

  (** a node without a right child that does not get one *)
  Lemma leaf_ok a hist w h p A ht ct blp llp lp fp fuel store : nrep h p (PNode A ht ct blp llp lp None) fp -> NoDup fp -> partition_is_complete (PNode A ht ct blp llp lp (None : option (pnode (avg S)))) = false ->
    match avg_update M A a hist w with
    | Ok (A', l) => exists h', node_upd M mh (Datatypes.S fuel) h p store a hist w = Ok h' /\ nrep h' p (PNode A' ht (ct + 1) (blp + l) llp (blp + l) None) fp /\ length h' = length h /\ (forall q, ~ In q fp -> nth_error h' q = nth_error h q)
    | Err e => node_upd M mh (Datatypes.S fuel) h p store a hist w = Err e
    end.
  Proof.
    intros HN ND HC. inversion HN; subst. match goal with H : arep h b A ?f |- _ => rename H into HA; rename f into fa end. match goal with H : nth_error h p = _ |- _ => rename H into HP end.
    inversion ND as [|? ? Np ND1]; subst. pose proof (averager_ok M a hist w h b A fa HA ND1) as HU.
    assert (U : node_upd M mh (Datatypes.S fuel) h p store a hist w = (do (h, l) <- averager_update M h b a hist w; do n <- get_node h p;
      let h := put_node h p (Node (n_base n) (n_height n) (n_count n) (n_blp n + l) (n_llp n) (n_lp n) (n_right n)) in
      do h <- match n_right n with
              | Some r =>
                  do h <- node_upd M mh fuel h r store a hist w; do c <- get_node h r; do n <- get_node h p;
                  Ok (put_node h p (Node (n_base n) (n_height n) (n_count n) (n_blp n) (n_llp n) (log_0_5 + logsumexp2 (n_blp n) (n_llp n + lift (n_height n - n_height c - 1) (n_blp c) (n_lp c))) (n_right n)))
              | None => do n <- get_node h p; Ok (put_node h p (Node (n_base n) (n_height n) (n_count n) (n_blp n) (n_llp n) (n_blp n) (n_right n)))
              end;
      do n <- get_node h p; Ok (put_node h p (Node (n_base n) (n_height n) (n_count n + 1) (n_blp n) (n_llp n) (n_lp n) (n_right n))))).
    { cbn [node_upd]. assert (G : get_node h p = Ok (Node b ht ct blp llp lp None)) by (unfold get_node, fget; now rewrite HP). rewrite G. cbn [bind n_base]. change (complete (Node b ht ct blp llp lp None)) with (partition_is_complete (PNode A ht ct blp llp lp (None : option (pnode (avg S))))).
      rewrite HC. reflexivity. }
    rewrite !U. clear U. destruct (avg_update M A a hist w) as [[A' l]|e]; [|now rewrite HU]. destruct HU as (h1 & -> & HA1 & L1 & F1). cbn [bind].
    assert (P1 : nth_error h1 p = Some (CNode b ht ct blp llp lp None)) by (rewrite F1 by exact Np; exact HP).
    assert (G1 : get_node h1 p = Ok (Node b ht ct blp llp lp None)) by (unfold get_node, fget; now rewrite P1). rewrite G1. cbn [bind n_right n_base n_height n_count n_blp n_llp n_lp]. unfold put_node. cbn [n_right n_base n_height n_count n_blp n_llp n_lp].
    rewrite (node_same _ _ _ _ P1). cbn [bind n_right n_base n_height n_count n_blp n_llp n_lp]. set (h2 := fput h1 p _). assert (P2 : exists c, nth_error h2 p = Some c) by (eexists; eapply set_same; exact P1). destruct P2 as [c2 P2].
    rewrite (node_same _ _ _ _ P2). cbn [bind n_right n_base n_height n_count n_blp n_llp n_lp]. eexists. split; [reflexivity|]. set (h3 := fput h2 p _). assert (P3 : exists c, nth_error h3 p = Some c) by (eexists; eapply set_same; exact P2). destruct P3 as [c3 P3].
    assert (F4 : forall c q, q <> p -> nth_error (fput h3 p c) q = nth_error h1 q) by (intros c q Hq; unfold h3, h2, fput; now rewrite !set_other).
    split; [|split].
    - apply nr_leaf with b; [eapply set_same; exact P3|]. apply arep_frame with (1 := HA1). intros q Hq. apply F4. intros ->. contradiction.
    - unfold fput, h3, h2, fput. rewrite !set_len. exact L1.
    - intros q Hq. rewrite F4 by (intros ->; apply Hq; now left). apply F1. intros HI. apply Hq. now right.
  Qed.

  (** store *)
  Variable store : list addr.
  Variable sts : list S.
  Hypothesis Hsts : sts <> [].

  Lemma pnode_promote fresh A ht ct blp llp lp rch a hist w : partition_is_complete (PNode A ht ct blp llp lp rch) = true ->
    pnode_update (AVG_model M) mh fresh (PNode A ht ct blp llp lp rch) a hist w =
    (do (A', l) <- avg_update M A a hist w; do (f', rl) <- avg_update M fresh a hist w;
     Ok (PNode A' (Datatypes.S ht) (ct + 1) (blp + l) lp (log_0_5 + logsumexp2 (blp + l) (lp + lift (Datatypes.S ht - mh - 1) (0 + rl) (0 + rl))) (Some (PNode f' mh 1 (0 + rl) 0 (0 + rl) None)))).
  Proof. intros H. cbn [pnode_update]. rewrite H. reflexivity. Qed.

  Lemma node_ok a hist w fresh : avg_init (number_from 0 sts) = Ok fresh -> forall fuel n h p fp, nrep h p n fp -> NoDup fp -> (length fp <= fuel)%nat -> Forall2 (is_base h) store sts -> (forall q, In q store -> ~ In q fp) ->
    match pnode_update (AVG_model M) mh fresh n a hist w with
    | Ok n' => exists h' fp', node_upd M mh fuel h p store a hist w = Ok h' /\ nrep h' p n' fp' /\ grown h h' fp fp'
    | Err e => node_upd M mh fuel h p store a hist w = Err e
    end.
  Proof.
    intros HF. induction fuel as [|fuel IH]; intros n h p fp HN ND L HS HD; [inversion HN; subst; cbn in L; lia|]. destruct n as [A ht ct blp llp lp rch].
    assert (HN0 := HN). assert (exists b r fa rest, nth_error h p = Some (CNode b ht ct blp llp lp r) /\ arep h b A fa /\ fp = p :: fa ++ rest /\
      match rch, r with None, None => rest = [] | Some n, Some r => nrep h r n rest | _, _ => False end) as (b & r & fa & rest & HP & HA & -> & HR).
    { inversion HN; subst; [exists b, None, fp0, []|exists b, (Some r), fp0, fpr]; repeat split; auto. now rewrite app_nil_r. }
    inversion ND as [|? ? Np ND1]; subst. destruct (nodup_parts _ _ ND1) as (D1 & D2 & D3). cbn in L. rewrite app_length in L.
    assert (Npa : ~ In p fa) by (intros HI; apply Np; apply in_or_app; now left). assert (Npr : ~ In p rest) by (intros HI; apply Np; apply in_or_app; now right).
    assert (Bp : (p < length h)%nat) by (apply nth_error_Some; now rewrite HP).
    assert (G : get_node h p = Ok (Node b ht ct blp llp lp r)) by (unfold get_node, fget; now rewrite HP).
    destruct (partition_is_complete (PNode A ht ct blp llp lp rch)) eqn:HC.
    - (* promotion *)
      rewrite pnode_promote by exact HC.
      destruct (model_made h store sts HS Hsts) as (A0 & h1 & b1 & f1 & EA & EM & HA1 & ND2 & (ext & ->) & N1). rewrite HF in EA. injection EA as <-.
      set (r1 := length (h ++ ext)). set (h2 := (h ++ ext) ++ [CNode b1 mh 0 0 0 0 None]). set (h3 := fput h2 p (CNode b (Datatypes.S ht) ct blp lp lp (Some r1))).
      assert (P2 : nth_error h2 p = Some (CNode b ht ct blp llp lp r)) by (unfold h2; rewrite <- app_assoc, nth_error_app1 by exact Bp; exact HP).
      assert (F3 : forall q, (q < length h)%nat -> q <> p -> nth_error h3 q = nth_error h q) by (intros q Bq Hq; unfold h3, fput; rewrite set_other by exact Hq; unfold h2; rewrite <- app_assoc; now apply nth_error_app1).
      assert (F3' : forall q, q <> p -> nth_error h3 q = nth_error h2 q) by (intros q Hq; unfold h3, fput; now rewrite set_other).
      assert (L3 : length h3 = Datatypes.S r1) by (unfold h3, fput, h2, r1; rewrite set_len, app_length; cbn; lia).
      assert (LE : (length h <= r1)%nat) by (unfold r1; rewrite app_length; lia).
      assert (U : node_upd M mh (Datatypes.S fuel) h p store a hist w = (do (h, l) <- averager_update M h3 b a hist w; do n <- get_node h p;
        let h := put_node h p (Node (n_base n) (n_height n) (n_count n) (n_blp n + l) (n_llp n) (n_lp n) (n_right n)) in
        do h <- match n_right n with
                | Some r =>
                    do h <- node_upd M mh fuel h r store a hist w; do c <- get_node h r; do n <- get_node h p;
                    Ok (put_node h p (Node (n_base n) (n_height n) (n_count n) (n_blp n) (n_llp n) (log_0_5 + logsumexp2 (n_blp n) (n_llp n + lift (n_height n - n_height c - 1) (n_blp c) (n_lp c))) (n_right n)))
                | None => do n <- get_node h p; Ok (put_node h p (Node (n_base n) (n_height n) (n_count n) (n_blp n) (n_llp n) (n_blp n) (n_right n)))
                end;
        do n <- get_node h p; Ok (put_node h p (Node (n_base n) (n_height n) (n_count n + 1) (n_blp n) (n_llp n) (n_lp n) (n_right n))))).
      { cbn [node_upd]. rewrite G. cbn [bind n_base]. change (complete (Node b ht ct blp llp lp r)) with (partition_is_complete (PNode A ht ct blp llp lp rch)). rewrite HC. unfold make_node. rewrite EM. reflexivity. }
      rewrite !U. clear U.
      assert (HA3 : arep h3 b A fa) by (apply arep_frame with (1 := HA); intros q Hq; apply F3; [exact (arep_bound _ _ _ _ HA q Hq)|intros ->; contradiction]).
      pose proof (averager_ok M a hist w h3 b A fa HA3 D1) as HU. destruct (avg_update M A a hist w) as [[A' l]|e]; cbn [bind]; [|now rewrite HU]. destruct HU as (h4 & -> & HA4 & L4 & F4). cbn [bind].
      assert (P3 : nth_error h3 p = Some (CNode b (Datatypes.S ht) ct blp lp lp (Some r1))) by (eapply set_same; exact P2).
      assert (P4 : nth_error h4 p = Some (CNode b (Datatypes.S ht) ct blp lp lp (Some r1))) by (rewrite F4 by exact Npa; exact P3).
      assert (G4 : get_node h4 p = Ok (Node b (Datatypes.S ht) ct blp lp lp (Some r1))) by (unfold get_node, fget; now rewrite P4). rewrite G4. cbn [bind n_right n_base n_height n_count n_blp n_llp n_lp].
      set (h5 := fput h4 p (CNode b (Datatypes.S ht) ct (blp + l) lp lp (Some r1))).
      change (put_node h4 p (Node b (Datatypes.S ht) ct (blp + l) lp lp (Some r1))) with h5.
      assert (P5 : nth_error h5 p = Some (CNode b (Datatypes.S ht) ct (blp + l) lp lp (Some r1))) by (eapply set_same; exact P4).
      assert (F5 : forall q, q <> p -> nth_error h5 q = nth_error h4 q) by (intros q Hq; now apply set_other).
      assert (Keep5 : forall q, (length h <= q)%nat -> nth_error h5 q = nth_error h2 q).
      { intros q Hq. rewrite F5 by lia. rewrite F4; [apply F3'; lia|]. intros HI. pose proof (arep_bound _ _ _ _ HA q HI). lia. }
      assert (N5 : nrep h5 r1 (PNode fresh mh 0 0 0 0 None) (r1 :: f1)).
      { apply nr_leaf with b1; [rewrite Keep5 by exact LE; unfold h2, r1; rewrite nth_error_app2 by lia; now rewrite Nat.sub_diag|]. apply arep_frame with (1 := HA1). intros q Hq. rewrite Keep5 by (now apply N1). unfold h2. apply nth_error_app1. exact (arep_bound _ _ _ _ HA1 q Hq). }
      assert (ND5 : NoDup (r1 :: f1)) by (constructor; [intros HI; pose proof (arep_bound _ _ _ _ HA1 r1 HI); unfold r1 in *; lia|exact ND2]).
      assert (HC5 : partition_is_complete (PNode fresh mh 0 0 0 0 (None : option (pnode (avg S)))) = false) by (unfold partition_is_complete; cbn [p_count p_height]; now rewrite Nat.shiftr_0_l).
      destruct fuel as [|fuel]; [exfalso; destruct (arep_head _ _ _ _ HA) as [f ->]; cbn in L; lia|].
      pose proof (leaf_ok a hist w h5 r1 fresh mh 0 0 0 0 (r1 :: f1) fuel store N5 ND5 HC5) as HL.
      destruct (avg_update M fresh a hist w) as [[f' rl]|e]; cbn [bind]; [|now rewrite HL]. destruct HL as (h6 & -> & N6 & L6 & F6). cbn [bind].
      destruct (nrep_get _ _ _ _ N6) as (b6 & r6 & G6 & _). rewrite G6. cbn [bind p_height p_count p_blp p_llp p_lp].
      assert (Nfp : forall q, (q < length h)%nat -> ~ In q (r1 :: f1)) by (intros q Hq [<-|HI]; [lia|apply N1 in HI; lia]).
      assert (P6 : nth_error h6 p = Some (CNode b (Datatypes.S ht) ct (blp + l) lp lp (Some r1))) by (rewrite F6 by (now apply Nfp); exact P5).
      assert (G7 : get_node h6 p = Ok (Node b (Datatypes.S ht) ct (blp + l) lp lp (Some r1))) by (unfold get_node, fget; now rewrite P6). rewrite G7. cbn [bind n_right n_base n_height n_count n_blp n_llp n_lp]. unfold put_node. cbn [n_right n_base n_height n_count n_blp n_llp n_lp].
      rewrite (node_same _ _ _ _ P6). cbn [bind n_right n_base n_height n_count n_blp n_llp n_lp]. set (h7 := fput h6 p _). assert (P7 : exists c, nth_error h7 p = Some c) by (eexists; eapply set_same; exact P6). destruct P7 as [c7 P7].
      eexists. exists (p :: fa ++ r1 :: f1). split; [reflexivity|]. set (h8 := fput h7 p _). assert (F8 : forall q, q <> p -> nth_error h8 q = nth_error h6 q) by (intros q Hq; unfold h8, h7, fput; now rewrite !set_other).
      split; [|split; [|split; [|split]]].
      + apply nr_right with b r1; [eapply set_same; exact P7|..].
        * apply arep_frame with (1 := HA4). intros q Hq. pose proof (arep_bound _ _ _ _ HA q Hq) as Bq. assert (q <> p) by (intros ->; contradiction). rewrite F8 by assumption. rewrite F6 by (now apply Nfp). now apply F5.
        * apply nrep_frame with (1 := N6). intros q Hq. apply F8. intros ->. exact (Nfp p Bp Hq).
      + constructor; [intros HI; apply in_app_or in HI as [HI|HI]; [contradiction|exact (Nfp p Bp HI)]|]. apply nodup_join; [exact D1|exact ND5|]. intros q Hq HI. exact (Nfp q (arep_bound _ _ _ _ HA q Hq) HI).
      + intros q [<-|HI]; [left; now left|]. apply in_app_or in HI as [HI|[<-|HI]]; [left; right; apply in_or_app; now left|now right|right; auto].
      + unfold h8, h7, fput. rewrite !set_len, L6. unfold h5, fput. rewrite set_len, L4, L3. lia.
      + intros q Bq Hq. assert (q <> p) by (intros ->; apply Hq; now left). rewrite F8 by assumption. rewrite F6 by (now apply Nfp). rewrite F5 by assumption. rewrite F4 by (intros HI; apply Hq; right; apply in_or_app; now left). now apply F3.
    - (* no promotion *)
      destruct rch as [n|]; destruct r as [r|]; try contradiction.
      + cbn [pnode_update]. rewrite HC. change (m_update (AVG_model M) A a hist w) with (avg_update M A a hist w).
        assert (U : node_upd M mh (Datatypes.S fuel) h p store a hist w = (do (h, l) <- averager_update M h b a hist w; do n <- get_node h p;
          let h := put_node h p (Node (n_base n) (n_height n) (n_count n) (n_blp n + l) (n_llp n) (n_lp n) (n_right n)) in
          do h <- match n_right n with
                  | Some r =>
                      do h <- node_upd M mh fuel h r store a hist w; do c <- get_node h r; do n <- get_node h p;
                      Ok (put_node h p (Node (n_base n) (n_height n) (n_count n) (n_blp n) (n_llp n) (log_0_5 + logsumexp2 (n_blp n) (n_llp n + lift (n_height n - n_height c - 1) (n_blp c) (n_lp c))) (n_right n)))
                  | None => do n <- get_node h p; Ok (put_node h p (Node (n_base n) (n_height n) (n_count n) (n_blp n) (n_llp n) (n_blp n) (n_right n)))
                  end;
          do n <- get_node h p; Ok (put_node h p (Node (n_base n) (n_height n) (n_count n + 1) (n_blp n) (n_llp n) (n_lp n) (n_right n))))).
        { cbn [node_upd]. rewrite G. cbn [bind n_base]. change (complete (Node b ht ct blp llp lp (Some r))) with (partition_is_complete (PNode A ht ct blp llp lp (Some n))). rewrite HC. reflexivity. }
        rewrite !U. clear U. pose proof (averager_ok M a hist w h b A fa HA D1) as HU. destruct (avg_update M A a hist w) as [[A' l]|e]; cbn [bind]; [|now rewrite HU]. destruct HU as (h4 & -> & HA4 & L4 & F4). cbn [bind].
        assert (P4 : nth_error h4 p = Some (CNode b ht ct blp llp lp (Some r))) by (rewrite F4 by exact Npa; exact HP).
        assert (G4 : get_node h4 p = Ok (Node b ht ct blp llp lp (Some r))) by (unfold get_node, fget; now rewrite P4). rewrite G4. cbn [bind n_right n_base n_height n_count n_blp n_llp n_lp].
        set (h5 := fput h4 p (CNode b ht ct (blp + l) llp lp (Some r))).
        change (put_node h4 p (Node b ht ct (blp + l) llp lp (Some r))) with h5.
        assert (P5 : nth_error h5 p = Some (CNode b ht ct (blp + l) llp lp (Some r))) by (eapply set_same; exact P4).
        assert (F5 : forall q, q <> p -> nth_error h5 q = nth_error h4 q) by (intros q Hq; now apply set_other).
        assert (L5 : length h5 = length h) by (unfold h5, fput; now rewrite set_len).
        assert (N5 : nrep h5 r n rest) by (apply nrep_frame with (1 := HR); intros q Hq; rewrite F5 by (intros ->; contradiction); apply F4; intros HI; exact (D3 q HI Hq)).
        assert (S5 : Forall2 (is_base h5) store sts).
        { apply base_frame with (1 := HS). intros q Hq. rewrite F5 by (intros ->; apply (HD p Hq); now left). apply F4. intros HI. apply (HD q Hq). right. apply in_or_app. now left. }
        pose proof (IH n h5 r rest N5 D2 ltac:(lia) S5 ltac:(intros q Hq HI; apply (HD q Hq); right; apply in_or_app; now right)) as HL.
        destruct (pnode_update (AVG_model M) mh fresh n a hist w) as [n'|e]; cbn [bind]; [|now rewrite HL]. destruct HL as (h6 & fr & -> & N6 & D6 & I6 & L6 & F6). cbn [bind].
        destruct (nrep_get _ _ _ _ N6) as (b6 & r6 & G6 & _). rewrite G6. cbn [bind p_height p_count p_blp p_llp p_lp].
        assert (Nfr : forall q, (q < length h)%nat -> ~ In q rest -> ~ In q fr) by (intros q Hq N HI; apply I6 in HI as [HI|HI]; [contradiction|lia]).
        assert (P6 : nth_error h6 p = Some (CNode b ht ct (blp + l) llp lp (Some r))) by (rewrite F6 by (try lia; exact Npr); exact P5).
        assert (G7 : get_node h6 p = Ok (Node b ht ct (blp + l) llp lp (Some r))) by (unfold get_node, fget; now rewrite P6). rewrite G7. cbn [bind n_right n_base n_height n_count n_blp n_llp n_lp]. unfold put_node. cbn [n_right n_base n_height n_count n_blp n_llp n_lp].
        rewrite (node_same _ _ _ _ P6). cbn [bind n_right n_base n_height n_count n_blp n_llp n_lp]. set (h7 := fput h6 p _). assert (P7 : exists c, nth_error h7 p = Some c) by (eexists; eapply set_same; exact P6). destruct P7 as [c7 P7].
        eexists. exists (p :: fa ++ fr). split; [reflexivity|]. set (h8 := fput h7 p _). assert (F8 : forall q, q <> p -> nth_error h8 q = nth_error h6 q) by (intros q Hq; unfold h8, h7, fput; now rewrite !set_other).
        assert (Bfa : forall q, In q fa -> (q < length h)%nat) by exact (arep_bound _ _ _ _ HA).
        split; [|split; [|split; [|split]]].
        * apply nr_right with b r; [eapply set_same; exact P7|..].
          -- apply arep_frame with (1 := HA4). intros q Hq. assert (q <> p) by (intros ->; contradiction). rewrite F8 by assumption. rewrite F6 by (try (rewrite L5; now apply Bfa); exact (D3 q Hq)). now apply F5.
          -- apply nrep_frame with (1 := N6). intros q Hq. apply F8. intros ->. exact (Nfr p Bp Npr Hq).
        * constructor; [intros HI; apply in_app_or in HI as [HI|HI]; [contradiction|exact (Nfr p Bp Npr HI)]|]. apply nodup_join; [exact D1|exact D6|]. intros q Hq HI. exact (Nfr q (Bfa q Hq) (D3 q Hq) HI).
        * intros q [<-|HI]; [left; now left|]. apply in_app_or in HI as [HI|HI]; [left; right; apply in_or_app; now left|]. apply I6 in HI as [HI|HI]; [left; right; apply in_or_app; now right|right; lia].
        * unfold h8, h7, fput. rewrite !set_len. lia.
        * intros q Bq Hq. assert (q <> p) by (intros ->; apply Hq; now left). rewrite F8 by assumption. rewrite F6; [|lia|intros HI; apply Hq; right; apply in_or_app; now right]. rewrite F5 by assumption. apply F4. intros HI. apply Hq. right. apply in_or_app. now left.
      + cbn [pnode_update]. rewrite HC. change (m_update (AVG_model M) A a hist w) with (avg_update M A a hist w).
        pose proof (leaf_ok a hist w h p A ht ct blp llp lp (p :: fa ++ rest) fuel store HN0 ND HC) as HL.
        destruct (avg_update M A a hist w) as [[A' l]|e]; cbn [bind]; [|exact HL]. destruct HL as (h' & E & N' & L' & F'). exists h', (p :: fa ++ rest). split; [exact E|]. split; [exact N'|]. repeat split; auto; lia.
  Qed.
End nodes.
