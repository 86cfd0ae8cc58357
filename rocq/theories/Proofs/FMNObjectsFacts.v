From Coq Require Import Lra.
From Verif Require Import Spec.FMNObjectsSpec Proofs.PyFacts Proofs.FMNFacts Proofs.CopiesFacts Proofs.CopiesUpdate.
Open Scope R_scope.

Section facts.
  Context {S : Type} (M : model S).
  Notation fheap := (fheap S).
  Notation fcell := (fcell S).
  Definition is_base (h : fheap) (k : addr) (s : S) : Prop := nth_error h k = Some (CBase s).
  Definition states (dm : dict (S * R)) : list S := map (fun kv => fst (snd kv)) dm.

  (** the Averager at [b] and its models *)
  Definition arep (h : fheap) (b : addr) (A : avg S) (fp : list addr) : Prop :=
    exists d, nth_error h b = Some (CAvg d (av_lp A)) /\ map snd d = avg_weights (av_models A) /\ Forall2 (is_base h) (map fst d) (states (av_models A)) /\ fp = b :: map fst d.

  Lemma base_frame h h' ks ss : Forall2 (is_base h) ks ss -> (forall q, In q ks -> nth_error h' q = nth_error h q) -> Forall2 (is_base h') ks ss.
  Proof. induction 1 as [|k s ks ss H HS IH]; intros F; constructor; [red; rewrite F; [exact H|now left]|]. apply IH. intros q Hq. apply F. now right. Qed.
  Lemma arep_frame h h' b A fp : arep h b A fp -> (forall q, In q fp -> nth_error h' q = nth_error h q) -> arep h' b A fp.
  Proof.
    intros (d & H1 & H2 & H3 & ->) F. exists d. split; [rewrite F; [exact H1|now left]|]. split; [exact H2|]. split; [|reflexivity]. apply base_frame with (1 := H3). intros q Hq. apply F. now right.
  Qed.
  Lemma base_bound h ks ss : Forall2 (is_base h) ks ss -> forall q, In q ks -> (q < length h)%nat.
  Proof. induction 1 as [|k s ks ss H HS IH]; intros q Hq; [destruct Hq|]. destruct Hq as [<-|Hq]; [|auto]. apply nth_error_Some. now rewrite H. Qed.
  Lemma arep_bound h b A fp : arep h b A fp -> forall q, In q fp -> (q < length h)%nat.
  Proof. intros (d & H1 & H2 & H3 & ->) q [<-|Hq]; [apply nth_error_Some; now rewrite H1|exact (base_bound _ _ _ H3 q Hq)]. Qed.
  Lemma arep_head h b A fp : arep h b A fp -> exists f, fp = b :: f.
  Proof. intros (d & _ & _ & _ & ->). eauto. Qed.

  Lemma weight_at dn k x td : ~ In k (map fst dn) -> weight_of (dn ++ (k, x) :: td) k = Ok x.
  Proof. induction dn as [|[j y] dn IH]; cbn; intros N; [now rewrite Nat.eqb_refl|]. destruct (Nat.eqb_spec j k) as [E|E]; [now destruct N; left|]. apply IH. tauto. Qed.
  Lemma set_at dn k x y td : ~ In k (map fst dn) -> set_weight (dn ++ (k, x) :: td) k y = dn ++ (k, y) :: td.
  Proof. induction dn as [|[j z] dn IH]; cbn; intros N; [now rewrite Nat.eqb_refl|]. destruct (Nat.eqb_spec j k) as [E|E]; [now destruct N; left|]. f_equal. apply IH. tauto. Qed.

  Lemma loop_ok a hist w (dm : dict (S * R)) : forall h b dn td lp, nth_error h b = Some (CAvg (dn ++ td) lp) -> map snd td = avg_weights dm -> Forall2 (is_base h) (map fst td) (states dm) -> NoDup (b :: map fst (dn ++ td)) ->
    match mapM (fun kv : Z * (S * R) => let '(k, (m, lp)) := kv in do (m', l) <- m_update M m a hist w; Ok (k, (m', lp + l))) dm with
    | Ok dm' => exists h' td', weights_loop M h b (map fst td) a hist w = Ok h' /\ nth_error h' b = Some (CAvg (dn ++ td') lp) /\ map fst td' = map fst td /\ map snd td' = avg_weights dm' /\
        Forall2 (is_base h') (map fst td) (states dm') /\ length h' = length h /\ (forall q, q <> b -> ~ In q (map fst td) -> nth_error h' q = nth_error h q)
    | Err e => weights_loop M h b (map fst td) a hist w = Err e
    end.
  Proof.
    induction dm as [|[z [m x]] dm IH]; intros h b dn td lp Hb E HB ND; destruct td as [|[k y] td]; try discriminate E.
    - cbn. exists h, []. repeat split; auto.
    - injection E as -> E. cbn [map fst states] in HB |- *. inversion HB as [|? ? ? ? H1 H2]; subst. cbn [snd fst] in H1.
      assert (ND0 := ND). rewrite map_app in ND. inversion ND as [|? ? Nb ND1]; subst. destruct (nodup_parts _ _ ND1) as (D1 & D2 & D3). cbn [map fst] in D2, D3, Nb. inversion D2 as [|? ? Nk D4]; subst.
      assert (Nd : ~ In k (map fst dn)) by (intros HI; exact (D3 k HI (or_introl eq_refl))).
      assert (Nkb : k <> b) by (intros ->; apply Nb; apply in_or_app; right; now left).
      assert (AL : weights_loop M h b (k :: map fst td) a hist w = (do (h, r) <- base_update M h k a hist w; do (d, lp) <- get_avg h b; weights_loop M (fput h b (CAvg (set_weight d k (x + r)) lp)) b (map fst td) a hist w)).
      { cbn [weights_loop]. unfold get_avg at 1, fget. rewrite Hb. cbn [bind]. now rewrite weight_at. }
      rewrite !AL. clear AL. cbn [mapM]. unfold base_update, fget. rewrite H1. cbn [bind]. destruct (m_update M m a hist w) as [[m' r]|e]; [|reflexivity]. cbn [bind].
      unfold get_avg, fget, fput. rewrite set_other by congruence. rewrite Hb. cbn [bind]. rewrite set_at by exact Nd.
      set (h2 := list_set (list_set h k (CBase m')) b (CAvg (dn ++ (k, x + r) :: td) lp)).
      assert (B2 : nth_error h2 b = Some (CAvg ((dn ++ [(k, x + r)]) ++ td) lp)) by (rewrite <- app_assoc; unfold h2; eapply set_same; rewrite set_other by congruence; exact Hb).
      assert (K2 : nth_error h2 k = Some (CBase m')) by (unfold h2; rewrite set_other by congruence; eapply set_same; exact H1).
      assert (F2 : forall q, q <> b -> q <> k -> nth_error h2 q = nth_error h q) by (intros q N1 N2; unfold h2; now rewrite !set_other).
      assert (R2 : Forall2 (is_base h2) (map fst td) (states dm)).
      { apply base_frame with (1 := H2). intros q Hq. apply F2; [intros ->; apply Nb; apply in_or_app; right; now right|intros ->; contradiction]. }
      specialize (IH h2 b (dn ++ [(k, x + r)]) td lp B2 E R2).
      assert (ND2 : NoDup (b :: map fst ((dn ++ [(k, x + r)]) ++ td))) by (rewrite <- app_assoc, map_app; cbn [map fst]; exact ND). specialize (IH ND2).
      destruct (mapM _ dm) as [dm'|e]; cbn [bind]; [|exact IH]. destruct IH as (h' & td' & E1 & B3 & K3 & V3 & R3 & L3 & F3).
      exists h', ((k, x + r) :: td'). split; [exact E1|]. split; [now rewrite B3, <- app_assoc|]. split; [cbn; now rewrite K3|]. split; [cbn; now rewrite V3|]. split; [|split].
      + cbn. constructor; [|exact R3]. red. rewrite F3; [exact K2|exact Nkb|exact Nk].
      + rewrite L3. unfold h2. now rewrite !set_len.
      + intros q N1 N2. rewrite F3; [apply F2; [exact N1|intros ->; apply N2; now left]|exact N1|intros HI; apply N2; now right].
  Qed.

  Lemma averager_ok a hist w h b A fp : arep h b A fp -> NoDup fp -> match avg_update M A a hist w with
    | Ok (A', r) => exists h', averager_update M h b a hist w = Ok (h', r) /\ arep h' b A' fp /\ length h' = length h /\ (forall q, ~ In q fp -> nth_error h' q = nth_error h q)
    | Err e => averager_update M h b a hist w = Err e
    end.
  Proof.
    intros (d & H1 & H2 & H3 & ->) ND. pose proof (loop_ok a hist w (av_models A) h b [] d (av_lp A) H1 H2 H3 ND) as HL. unfold avg_update, averager_update. unfold get_avg at 1 3, fget. rewrite H1. cbn [bind].
    destruct (mapM _ (av_models A)) as [dm'|e]; cbn [bind].
    2:{ rewrite HL. reflexivity. }
    destruct HL as (h' & td' & -> & B & K & V & F & L & Fr). cbn [bind app] in *. unfold get_avg, fget. rewrite B. cbn [bind]. rewrite V. destruct (logsumexp (avg_weights dm')) as [l|e]; [|reflexivity]. cbn [bind].
    eexists. split; [reflexivity|]. split; [|split].
    - exists td'. cbn [av_lp av_models]. split; [eapply set_same; exact B|]. split; [exact V|]. split; [|now rewrite K]. rewrite K. apply base_frame with (1 := F). intros q Hq. apply set_other. intros ->. inversion ND as [|? ? N ?]; contradiction.
    - unfold fput. now rewrite set_len.
    - intros q Hq. unfold fput. rewrite set_other by (intros ->; apply Hq; now left). apply Fr; [intros ->; apply Hq; now left|intros HI; apply Hq; now right].
  Qed.
  Lemma averager_logp_ok a hist h b A fp : arep h b A fp -> averager_logp M h b a hist = avg_log_predict M A a hist.
  Proof.
    intros (d & H1 & H2 & H3 & ->). unfold averager_logp, avg_log_predict, get_avg, fget. rewrite H1. cbn [bind].
    assert (E : mapM (fun kv : addr * R => do l <- base_logp M h (fst kv) a hist; Ok (l + snd kv)) d = mapM (fun kv : Z * (S * R) => let '(k, (m, lp)) := kv in do l <- m_logp M m a hist; Ok (l + lp)) (av_models A)).
    { clear H1. destruct A as [dm lp]. cbn [av_models] in *. revert d H2 H3. induction dm as [|[z [m x]] dm IH]; intros [|[k y] d] H2 H3; try discriminate H2; [reflexivity|]. injection H2 as -> H2. cbn in H3. inversion H3 as [|? ? ? ? B1 B2]; subst.
      cbn [mapM fst snd]. unfold base_logp at 1, fget. rewrite B1. cbn [bind fst snd]. destruct (m_logp M m a hist); [|reflexivity]. cbn [bind]. now rewrite (IH d H2 B2). }
    now rewrite E.
  Qed.

  (** ** Making models *)
  Lemma base_ext h ext ks ss : Forall2 (is_base h) ks ss -> Forall2 (is_base (h ++ ext)) ks ss.
  Proof. intros H. apply base_frame with (1 := H). intros q Hq. apply nth_error_app1. exact (base_bound _ _ _ H q Hq). Qed.
  Lemma copies_made ks ss : forall h, Forall2 (is_base h) ks ss -> base_copies h ks = Ok (h ++ map CBase ss, seq (length h) (length ss)) /\ Forall2 (is_base (h ++ map CBase ss)) (seq (length h) (length ss)) ss.
  Proof.
    revert ss. induction ks as [|k ks IH]; intros ss h H; inversion H as [|? s ? ss' H1 H2]; subst.
    - cbn. rewrite app_nil_r. split; [reflexivity|constructor].
    - cbn [base_copies]. unfold base_copy, fget. rewrite H1. cbn [bind falloc]. destruct (IH ss' (h ++ [CBase s]) (base_ext _ _ _ _ H2)) as [E F]. rewrite E. cbn [bind].
      rewrite <- app_assoc in *. cbn [app map] in *. replace (length (h ++ [CBase s])) with (Datatypes.S (length h)) in * by (rewrite app_length; cbn; lia). split; [reflexivity|].
      cbn. constructor; [|exact F]. red. rewrite nth_error_app2 by lia. now rewrite Nat.sub_diag.
  Qed.
  Lemma weights_fold l ms : forall dn, NoDup (map fst dn ++ ms) -> fold_left (fun d m => set_weight d m l) ms dn = dn ++ map (fun m => (m, l)) ms.
  Proof.
    induction ms as [|m ms IH]; intros dn ND; [cbn; now rewrite app_nil_r|]. cbn [fold_left map].
    assert (N : ~ In m (map fst dn)) by (intros HI; destruct (nodup_parts _ _ ND) as (_ & _ & D); exact (D m HI (or_introl eq_refl))).
    assert (E : set_weight dn m l = dn ++ [(m, l)]). { clear - N. induction dn as [|[k x] dn IH]; cbn; [reflexivity|]. destruct (Nat.eqb_spec k m) as [E|E]; [destruct N; now left|]. f_equal. apply IH. intros HI. apply N. now right. }
    rewrite E, IH; [now rewrite <- app_assoc|]. rewrite map_app, <- app_assoc. exact ND.
  Qed.
  Lemma number_snd {X} (l : list X) : forall i, map snd (number_from i l) = l.
  Proof. induction l as [|x l IH]; intros i; cbn; [reflexivity|]. now rewrite IH. Qed.
  Lemma model_made h ks ss : Forall2 (is_base h) ks ss -> ss <> [] -> exists A h' b fp, avg_init (number_from 0 ss) = Ok A /\ make_model h ks = Ok (h', b) /\ arep h' b A fp /\ NoDup fp /\
    (exists ext, h' = h ++ ext) /\ (forall q, In q fp -> (length h <= q)%nat).
  Proof.
    intros H N. destruct (copies_made ks ss h H) as [E F]. unfold avg_init, make_model. rewrite E. cbn [bind]. unfold new_averager. rewrite seq_length, number_from_length.
    assert (LP : 0 < INR (length ss)) by (apply lt_0_INR; destruct ss; [now destruct N|cbn; lia]). unfold py_div. destruct (Req_EM_T (INR (length ss)) 0) as [E0|_]; [lra|]. cbn [bind].
    unfold py_log. destruct (Rlt_dec 0 (1 / INR (length ss))) as [_|N1]; [|exfalso; apply N1; apply Rdiv_lt_0_compat; lra]. cbn [bind]. set (l := ln (1 / INR (length ss))).
    rewrite weights_fold by (cbn; apply seq_NoDup). rewrite (fold_dict_set_app (fst (A := Z) (B := S)) (fun kv => (snd kv, l))); [|apply number_from_nodup|intros x _ []]. cbn [app].
    do 4 eexists. split; [reflexivity|]. split; [reflexivity|]. split; [|split; [|split]].
    - exists (map (fun m => (m, l)) (seq (length h) (length ss))). cbn [av_lp av_models]. split; [unfold falloc; cbn; rewrite nth_error_app2 by lia; now rewrite Nat.sub_diag|]. split; [|split; [|reflexivity]].
      + unfold avg_weights. rewrite !map_map. cbn [snd fst]. generalize l (length h). generalize 0%Z at 1. clear. intros z l n. revert z n. induction ss as [|s ss IH]; intros z n; cbn; [reflexivity|]. f_equal. apply IH.
      + unfold states. rewrite !map_map. cbn [snd fst]. rewrite map_id, number_snd. apply base_ext. exact F.
    - rewrite map_map. cbn [fst]. rewrite map_id. constructor; [|apply seq_NoDup]. rewrite in_seq, app_length, map_length. lia.
    - exists (map CBase ss ++ [CAvg (map (fun m => (m, l)) (seq (length h) (length ss))) 0]). unfold falloc. cbn. now rewrite app_assoc.
    - intros q [<-|Hq]; [rewrite app_length; lia|]. rewrite map_map in Hq. cbn [fst] in Hq. rewrite map_id in Hq. apply in_seq in Hq. lia.
  Qed.
End facts.
