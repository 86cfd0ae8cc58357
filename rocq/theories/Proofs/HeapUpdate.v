(** Updates and predictions over shared nodes, for any data at the nodes: the same values as on
    separate trees, seen as functions from paths to data. *)
From Coq Require Import Arith FunctionalExtensionality.
From Verif Require Import Model.Heap Proofs.PyFacts Proofs.HeapFacts Proofs.HeapEngine.
Local Open Scope nat_scope.

Section update.
  Context {D : Type} (fresh : D) (N : nat).
  Notation heap := (heap D).
  Notation wf0 := (wf0 (D := D) N).
  Notation look := (look fresh).
  Variable keyf : nat -> Z -> result nat.
  Hypothesis keyf_lt : forall n c k, keyf n c = Ok k -> k < n.

  Section upd.
    Variables (step1 : D -> result D) (leaf : D -> D * R) (node : D -> R -> D * R).

    Fixpoint hupd (ctx : list Z) (h : heap) (p : ptr) : result (heap * R) :=
      do c <- hget h p;
      do d <- step1 (c_data c);
      do h <- put_data h p d;
      match ctx with
      | [] => let '(d', r) := leaf d in do h <- put_data h p d'; Ok (h, r)
      | a :: ctx' =>
          do k <- keyf (length (c_kids c)) a;
          do (h, q) <- getchild fresh N h p k;
          do (h, r) <- hupd ctx' h q;
          do c <- hget h p;
          let '(d', r') := node (c_data c) r in
          do h <- put_data h p d';
          Ok (h, r')
      end.

    Fixpoint fupd (ctx : list Z) (f : list nat -> D) : result ((list nat -> D) * R) :=
      do d <- step1 (f []);
      match ctx with
      | [] =>
          let '(d', r) := leaf d in
          Ok (fun path => match path with [] => d' | _ => f path end, r)
      | a :: ctx' =>
          do k <- keyf N a;
          do (g, r) <- fupd ctx' (fun path => f (k :: path));
          let '(d', r') := node d r in
          Ok (fun path => match path with
                          | [] => d'
                          | k' :: path' => if Nat.eq_dec k' k then g path' else f path
                          end, r')
      end.

    Definition same_node (h' : heap) (x : ptr) (c : cell D) : Prop :=
      exists rc', at_ h' x = Some (Cell (c_data c) (c_kids c) rc').

    (** changing the data of one node, seen from it *)
    Lemma look_put_self h e rk p c d : wf0 h e rk -> pos h -> at_ h p = Some c ->
      look (list_set h p (Some (Cell d (c_kids c) (c_rc c)))) p =
      (fun path => match path with [] => d | _ => look h p path end).
    Proof.
      intros W P Hp. pose proof (at_lt _ _ _ Hp) as Hl.
      set (h1 := list_set _ _ _).
      assert (B: at_ h1 p = Some (Cell d (c_kids c) (c_rc c))) by (apply at_set_same; exact Hl).
      assert (A: forall x, x <> p -> at_ h1 x = at_ h x) by (intros; apply at_set_other; auto).
      apply functional_extensionality. intros [|k path]; cbn [HeapEngine.look]; rewrite B; [reflexivity|].
      rewrite Hp. cbn [c_kids]. destruct (nth_error (c_kids c) k) as [[q|]|] eqn:E; [|reflexivity|reflexivity].
      assert (Epq: edge h p q) by (exists c; split; [exact Hp|apply nth_error_In with k; exact E]).
      assert (F: look h1 q = look h q); [|rewrite F; reflexivity].
      assert (R: forall x, reach h q x -> x <> p).
      { intros x Hx ->. destruct Epq as (c0 & Hc0 & Hi). pose proof (w_rank _ _ _ _ W p c0 q Hc0 (P _ _ Hc0) Hi).
        destruct (reach_rank N h e rk q p W P Hx) as [->|]; lia. }
      apply look_frame.
      - intros x cx Hx Hcx. exists cx. rewrite A by (apply R; exact Hx). auto.
      - intros x Hx. eapply reach_live; eauto. eapply edge_live; eauto.
    Qed.

    Lemma edge_put (h : heap) p (c : cell D) d x y : at_ h p = Some c ->
      edge (list_set h p (Some (Cell d (c_kids c) (c_rc c)))) x y <-> edge h x y.
    Proof.
      intros Hp. pose proof (at_lt _ _ _ Hp) as Hl. unfold edge. split; intros (cx & Hx & Hi).
      - destruct (Nat.eq_dec x p) as [->|Hne].
        + rewrite at_set_same in Hx by exact Hl. injection Hx as <-. exists c. split; assumption.
        + rewrite at_set_other in Hx by exact Hne. exists cx. split; assumption.
      - destruct (Nat.eq_dec x p) as [->|Hne].
        + assert (cx = c) by congruence. subst cx. eexists. split; [apply at_set_same; exact Hl|exact Hi].
        + exists cx. rewrite at_set_other by exact Hne. split; assumption.
    Qed.

    Lemma reach_put (h : heap) p (c : cell D) d z x : at_ h p = Some c ->
      reach (list_set h p (Some (Cell d (c_kids c) (c_rc c)))) z x <-> reach h z x.
    Proof.
      intros Hp. split; intros H; induction H as [|x y H IH E]; try constructor;
        eapply reach_step; try exact IH; apply (edge_put h p c d x y Hp); exact E.
    Qed.

    Lemma owned_put (h : heap) p (c : cell D) d z x : at_ h p = Some c ->
      owned (list_set h p (Some (Cell d (c_kids c) (c_rc c)))) z x -> owned h z x.
    Proof.
      intros Hp H. pose proof (at_lt _ _ _ Hp) as Hl. induction H as [|x y cy H IH E Hy Hr]; [constructor|].
      apply (edge_put h p c d x y Hp) in E. destruct (Nat.eq_dec y p) as [->|Hne].
      - rewrite at_set_same in Hy by exact Hl. injection Hy as <-. eapply owned_step; eauto.
      - rewrite at_set_other in Hy by exact Hne. eapply owned_step; eauto.
    Qed.

    Lemma hupd_spec ctx : forall h e rk p c, wf0 h e rk -> pos h -> (forall x, (0 <= e x)%Z) ->
      at_ h p = Some c -> c_rc c = 1 ->
      match fupd ctx (look h p) with
      | Err x => hupd ctx h p = Err x
      | Ok (f', r) =>
          exists h' rk' c', hupd ctx h p = Ok (h', r) /\ wf0 h' e rk' /\ pos h' /\
            look h' p = f' /\ at_ h' p = Some c' /\ c_rc c' = 1 /\
            (forall x cx, at_ h x = Some cx -> ~ owned h p x -> same_node h' x cx) /\
            (forall x cx, at_ h x = Some cx -> ~ reach h p x -> at_ h' x = Some cx) /\
            (forall x, at_ h x <> None -> at_ h' x <> None)
      end.
    Proof.
      induction ctx as [|a ctx IH]; intros h e rk p c W P He Hp Hr; cbn [fupd hupd].
      - rewrite (hget_ok _ _ _ Hp). cbn [bind]. replace (look h p []) with (c_data c) by (cbn [HeapEngine.look]; rewrite Hp; reflexivity).
        destruct (step1 (c_data c)) as [d|x]; cbn [bind]; [|reflexivity].
        rewrite (put_data_ok _ _ _ _ Hp). cbn [bind].
        destruct (put_data_wf N h e rk p c d W P Hp) as [W1 P1]. set (h1 := list_set _ _ _) in *.
        pose proof (at_lt _ _ _ Hp) as Hl.
        assert (Hp1: at_ h1 p = Some (Cell d (c_kids c) (c_rc c))) by (apply at_set_same; exact Hl).
        destruct (leaf d) as [d' r]. rewrite (put_data_ok _ _ _ _ Hp1). cbn [bind].
        destruct (put_data_wf N h1 e rk p _ d' W1 P1 Hp1) as [W2 P2]. cbn [c_kids c_rc] in *.
        assert (E: list_set h1 p (Some (Cell d' (c_kids c) (c_rc c))) = list_set h p (Some (Cell d' (c_kids c) (c_rc c)))).
        { unfold h1. clear. revert p. induction h as [|o h IH]; intros [|p]; cbn; try reflexivity. f_equal. apply IH. }
        rewrite E in *. exists (list_set h p (Some (Cell d' (c_kids c) (c_rc c)))), rk.
        eexists. split; [reflexivity|]. split; [exact W2|]. split; [exact P2|].
        split; [eapply look_put_self; eauto|]. split; [apply at_set_same; exact Hl|]. split; [exact Hr|].
        split; [|split].
        + intros x cx Hx Ho. exists (c_rc cx). rewrite at_set_other by (intros ->; apply Ho; constructor). rewrite Hx. destruct cx; reflexivity.
        + intros x cx Hx Ho. rewrite at_set_other by (intros ->; apply Ho; constructor). exact Hx.
        + intros x Hx. destruct (Nat.eq_dec x p) as [->|Hne]; [rewrite at_set_same by exact Hl; discriminate|rewrite at_set_other by exact Hne; exact Hx].
      - rewrite (hget_ok _ _ _ Hp). cbn [bind]. replace (look h p []) with (c_data c) by (cbn [HeapEngine.look]; rewrite Hp; reflexivity).
        destruct (step1 (c_data c)) as [d|x]; cbn [bind]; [|reflexivity].
        rewrite (put_data_ok _ _ _ _ Hp). cbn [bind].
        destruct (put_data_wf N h e rk p c d W P Hp) as [W1 P1].
        pose proof (look_put_self h e rk p c d W P Hp) as LS.
        pose proof (fun z x => reach_put h p c d z x Hp) as RP.
        pose proof (fun z x => owned_put h p c d z x Hp) as OP.
        set (h1 := list_set _ _ _) in *.
        pose proof (at_lt _ _ _ Hp) as Hl.
        assert (Hp1: at_ h1 p = Some (Cell d (c_kids c) (c_rc c))) by (apply at_set_same; exact Hl).
        assert (O1: forall x, x <> p -> at_ h1 x = at_ h x) by (intros; apply at_set_other; auto).
        assert (L1: forall x, at_ h x <> None -> at_ h1 x <> None).
        { intros x Hx. destruct (Nat.eq_dec x p) as [->|Hne]; [congruence|rewrite O1 by exact Hne; exact Hx]. }
        rewrite (w_shape _ _ _ _ W p c Hp). destruct (keyf N a) as [k|x] eqn:Ek; cbn [bind]; [|reflexivity].
        pose proof (keyf_lt _ _ _ Ek) as Hk.
        destruct (getchild_spec fresh N h1 e rk p _ k W1 P1 He Hp1 Hk)
          as (h2 & q & rk2 & cq & Eg & W2 & P2 & Hp2 & Hq & Rq & Lk & Fr & Fd & Rd & Od).
        rewrite Eg. cbn [bind c_data c_kids c_rc] in *.
        assert (Klen: k < length (c_kids c)) by (rewrite (w_shape _ _ _ _ W p c Hp); exact Hk).
        assert (Kq: nth_error (list_set (c_kids c) k (Some q)) k = Some (Some q)) by (apply nth_error_list_set_same; exact Klen).
        assert (Lq: look h2 q = (fun path => look h p (k :: path))).
        { apply functional_extensionality. intros path.
          assert (look h2 p (k :: path) = look h p (k :: path)) as <-; [rewrite (Lk p ltac:(congruence)), LS; reflexivity|].
          cbn [HeapEngine.look]. rewrite Hp2. cbn [c_kids]. rewrite Kq. reflexivity. }
        specialize (IH h2 e rk2 q cq W2 P2 He Hq Rq). rewrite Lq in IH.
        destruct (fupd ctx (fun path => look h p (k :: path))) as [[g r]|x]; cbn [bind]; [|rewrite IH; reflexivity].
        destruct IH as (h3 & rk3 & cq3 & Eu & W3 & P3 & Lg & Hq3 & Rq3 & Fo & Fn & Fl). rewrite Eu. cbn [bind].
        assert (Epq: edge h2 p q).
        { eexists. split; [exact Hp2|]. cbn [c_kids]. apply nth_error_In with k. exact Kq. }
        assert (Npq: ~ reach h2 q p).
        { intros H. pose proof (reach_rank N h2 e rk2 q p W2 P2 H) as T. destruct Epq as (c0 & Hc0 & Hi).
          pose proof (w_rank _ _ _ _ W2 p c0 q Hc0 (P2 _ _ Hc0) Hi). destruct T as [->|]; lia. }
        pose proof (Fn p _ Hp2 Npq) as Hp3. rewrite (hget_ok _ _ _ Hp3). cbn [bind c_data].
        destruct (node d r) as [d' r'] eqn:En.
        rewrite (put_data_ok _ _ _ _ Hp3). cbn [bind c_kids c_rc].
        destruct (put_data_wf N h3 e rk3 p _ d' W3 P3 Hp3) as [W4 P4].
        pose proof (look_put_self h3 e rk3 p _ d' W3 P3 Hp3) as LS4. cbn [c_kids c_rc] in *.
        set (h4 := list_set h3 p _) in *. pose proof (at_lt _ _ _ Hp3) as Hl3.
        assert (O4: forall x, x <> p -> at_ h4 x = at_ h3 x) by (intros; apply at_set_other; auto).
        exists h4, rk3. eexists. split; [reflexivity|]. split; [exact W4|]. split; [exact P4|].
        split; [|split; [apply at_set_same; exact Hl3|split; [exact Hr|split; [|split]]]].
        + (* the tree below p *)
          rewrite LS4. apply functional_extensionality. intros [|k' path]; [reflexivity|].
          cbn [HeapEngine.look]. rewrite Hp3. cbn [c_kids]. destruct (Nat.eq_dec k' k) as [->|Hne].
          * rewrite Kq. rewrite Lg. reflexivity.
          * rewrite nth_error_list_set_other by congruence. rewrite Hp.
            destruct (nth_error (c_kids c) k') as [[z|]|] eqn:Ez; [|reflexivity|reflexivity].
            assert (Hz: at_ h z <> None).
            { eapply (w_closed _ _ _ _ W p c z Hp (P _ _ Hp)). apply nth_error_In with k'. exact Ez. }
            assert (Ezs: nth_error (list_set (c_kids c) k (Some q)) k' = Some (Some z)) by (rewrite nth_error_list_set_other by congruence; exact Ez).
            assert (F: look h3 z = look h2 z).
            { apply look_frame.
              - intros x cx Hx Hcx. destruct (Fo x cx Hcx) as [rc' E].
                + intros Ho. revert Hx. eapply (not_owned_sibling N h2 e rk2 p _ k k' q z cq); eauto.
                + rewrite E. eexists. split; [reflexivity|]. split; reflexivity.
              - intros x Hx. eapply (reach_live N h2 e rk2 z); eauto. eapply (w_closed _ _ _ _ W2 p _ z Hp2 (P2 _ _ Hp2)).
                apply nth_error_In with k'. exact Ezs. }
            rewrite F, (Lk z (L1 z Hz)).
            assert (F1: look h1 z = look h z); [|rewrite F1; reflexivity].
            assert (Epz: edge h p z) by (exists c; split; [exact Hp|apply nth_error_In with k'; exact Ez]).
            apply look_frame.
            -- intros x cx Hx Hcx. exists cx. split; [|split; reflexivity]. rewrite O1; [exact Hcx|]. intros ->.
               pose proof (reach_rank N h e rk z p W P Hx) as T. destruct Epz as (c0 & Hc0 & Hi).
               pose proof (w_rank _ _ _ _ W p c0 z Hc0 (P _ _ Hc0) Hi). destruct T as [->|]; lia.
            -- intros x Hx. eapply (reach_live N h e rk z); eauto.
        + intros x cx Hx Ho. assert (Hxp: x <> p) by (intros ->; apply Ho; constructor).
          assert (Hx1: at_ h1 x = Some cx) by (rewrite O1 by exact Hxp; exact Hx).
          destruct (Fr x cx Hx1 Hxp) as [rc1 Hx2]. destruct (Fo x _ Hx2) as [rc2 Hx3].
          * intros Ho2. apply Ho. apply OP. apply Od; [congruence|exact Ho2].
          * exists rc2. rewrite O4 by exact Hxp. exact Hx3.
        + intros x cx Hx Hn. assert (Hxp: x <> p) by (intros ->; apply Hn; constructor).
          assert (Hx1: at_ h1 x = Some cx) by (rewrite O1 by exact Hxp; exact Hx).
          rewrite O4 by exact Hxp. apply Fn.
          * apply Fd; [exact Hx1|]. intros H. apply Hn. apply RP. exact H.
          * intros H. apply Hn. apply RP. apply Rd; [congruence|exact H].
        + intros x Hx. destruct (Nat.eq_dec x p) as [->|Hxp]; [unfold h4; rewrite at_set_same by exact Hl3; discriminate|].
          rewrite O4 by exact Hxp. apply Fl. pose proof (L1 x Hx) as Hx1. destruct (at_ h1 x) as [cx|] eqn:E1; [|congruence].
          destruct (Fr x cx E1 Hxp) as [rc1 ->]. discriminate.
    Qed.
  End upd.

  Section pred.
    Variables (pred : D -> result R) (pleaf : D -> R -> R) (pnode : D -> R -> R -> R).

    Fixpoint hprd (ctx : list Z) (h : heap) (p : ptr) : result (heap * R) :=
      do c <- hget h p;
      do l <- pred (c_data c);
      match ctx with
      | [] => Ok (h, pleaf (c_data c) l)
      | a :: ctx' =>
          do k <- keyf (length (c_kids c)) a;
          do (h, q) <-
            match nth_error (c_kids c) k with
            | None => Err OutOfBounds
            | Some None =>
                let '(h, q) := halloc h (blank fresh N) in do h <- put_kid h p k q; Ok (h, q)
            | Some (Some q) => Ok (h, q)
            end;
          do (h, r) <- hprd ctx' h q;
          Ok (h, pnode (c_data c) l r)
      end.

    Fixpoint fprd (ctx : list Z) (f : list nat -> D) : result R :=
      do l <- pred (f []);
      match ctx with
      | [] => Ok (pleaf (f []) l)
      | a :: ctx' =>
          do k <- keyf N a;
          do r <- fprd ctx' (fun path => f (k :: path));
          Ok (pnode (f []) l r)
      end.

    Lemma hprd_spec ctx : forall h e rk p, wf0 h e rk -> pos h ->
      at_ h p <> None ->
      match fprd ctx (look h p) with
      | Err x => hprd ctx h p = Err x
      | Ok r =>
          exists h' rk', hprd ctx h p = Ok (h', r) /\ wf0 h' e rk' /\ pos h' /\
            (forall x, at_ h x <> None -> look h' x = look h x) /\
            (forall x cx, at_ h x = Some cx -> exists kids, at_ h' x = Some (Cell (c_data cx) kids (c_rc cx)))
      end.
    Proof.
      induction ctx as [|a ctx IH]; intros h e rk p W P Hl; cbn [fprd hprd];
        destruct (at_ h p) as [c|] eqn:Hp; try congruence; rewrite (hget_ok _ _ _ Hp); cbn [bind];
        replace (look h p []) with (c_data c) by (cbn [HeapEngine.look]; rewrite Hp; reflexivity);
        (destruct (pred (c_data c)) as [l|x]; cbn [bind]; [|reflexivity]).
      - exists h, rk. split; [reflexivity|]. split; [exact W|]. split; [exact P|]. split; [reflexivity|].
        intros x cx Hx. exists (c_kids cx). rewrite Hx. destruct cx; reflexivity.
      - rewrite (w_shape _ _ _ _ W p c Hp). destruct (keyf N a) as [k|x] eqn:Ek; cbn [bind]; [|reflexivity].
        pose proof (keyf_lt _ _ _ Ek) as Hk. 
        destruct (nth_error (c_kids c) k) as [[q|]|] eqn:En.
        + cbn [bind].
          assert (Lq: (fun path => look h p (k :: path)) = look h q).
          { apply functional_extensionality. intros path. cbn [HeapEngine.look]. rewrite Hp, En. reflexivity. }
          rewrite Lq.
          assert (Hq: at_ h q <> None).
          { eapply (w_closed _ _ _ _ W p c q Hp (P _ _ Hp)). apply nth_error_In with k. exact En. }
          specialize (IH h e rk q W P Hq). destruct (fprd ctx (look h q)) as [r|x]; cbn [bind]; [|rewrite IH; reflexivity].
          destruct IH as (h' & rk' & E & W' & P' & L' & A'). rewrite E. cbn [bind]. exists h', rk'. auto.
        + cbn [halloc]. destruct (new_wf fresh N h e rk W P) as [W1 P1].
          pose proof (at_lt _ _ _ Hp) as Hlt.
          assert (Hp1: at_ (h ++ [Some (blank fresh N)]) p = Some c) by (rewrite at_app_old by lia; exact Hp).
          destruct (put_kid_wf N _ _ _ p c k None (length h) W1 P1 Hp1 En) as (E & W2 & P2).
          { rewrite at_app_new. discriminate. }
          { destruct (Nat.eq_dec (length h) (length h)); [|congruence]. destruct (Nat.eq_dec (length h) p); lia. }
          rewrite E. cbn [bind].
          pose proof (look_new fresh N h e rk p c k W P Hp En) as LN.
          set (h1 := list_set _ _ _) in *.
          assert (Hl1: p < length (h ++ [Some (blank fresh N)])) by (rewrite app_length; cbn; lia).
          assert (B: at_ h1 p = Some (Cell (c_data c) (list_set (c_kids c) k (Some (length h))) (c_rc c))) by (apply at_set_same; exact Hl1).
          assert (Q: at_ h1 (length h) = Some (blank fresh N)) by (unfold h1; rewrite at_set_other by lia; apply at_app_new).
          assert (A: forall x cx, at_ h x = Some cx -> exists kids, at_ h1 x = Some (Cell (c_data cx) kids (c_rc cx))).
          { intros x cx Hx. destruct (Nat.eq_dec x p) as [->|Hxp].
            - assert (cx = c) by congruence. subst cx. eexists. exact B.
            - exists (c_kids cx). unfold h1. rewrite at_set_other by exact Hxp. rewrite at_app_old; [rewrite Hx; destruct cx; reflexivity|].
              intros ->. rewrite at_beyond in Hx by lia. discriminate. }
          assert (Lq: (fun path => look h p (k :: path)) = look h1 (length h)).
          { apply functional_extensionality. intros path. rewrite <- (LN p) by congruence. cbn [HeapEngine.look]. rewrite B. cbn [c_kids].
            rewrite nth_error_list_set_same; [reflexivity|]. apply nth_error_Some. congruence. }
          rewrite Lq.
          assert (We: wf0 h1 e (fun x => if Nat.eq_dec (length h) x then 0 else S (rk x))).
          { eapply wf0_ext_eq; [|exact W2]. intros x. cbv beta. lia. }
          specialize (IH h1 e _ (length h) We P2 ltac:(congruence)).
          destruct (fprd ctx (look h1 (length h))) as [r|x]; cbn [bind]; [|rewrite IH; reflexivity].
          destruct IH as (h' & rk' & E' & W' & P' & L' & A'). rewrite E'. cbn [bind]. exists h', rk'.
          split; [reflexivity|]. split; [exact W'|]. split; [exact P'|]. split.
          * intros x Hx. rewrite L'; [apply LN; exact Hx|]. destruct (at_ h x) as [cx|] eqn:Ex; [|congruence].
            destruct (A x cx Ex) as [kids ->]. discriminate.
          * intros x cx Hx. destruct (A x cx Hx) as [kids Hx1]. destruct (A' x _ Hx1) as [kids' Hx2]. exists kids'. exact Hx2.
        + apply nth_error_None in En. rewrite (w_shape _ _ _ _ W p c Hp) in En. lia.
    Qed.
  End pred.

End update.

Section roots.
  Context {D : Type} (fresh : D) (N : nat).
  Notation heap := (heap D).
  Notation wf0 := (wf0 (D := D) N).
  Notation look := (look fresh).

  (** ** copying a root *)
  Lemma hcopy_spec h e rk p c : wf0 h e rk -> pos h -> at_ h p = Some c ->
    exists h' q rk', hcopy h p = Ok (h', q) /\ wf0 h' (fun x => e x + delta q x)%Z rk' /\ pos h' /\
      at_ h q = None /\ look h' q = look h p /\
      (forall x, at_ h x <> None -> look h' x = look h x) /\
      (exists c', at_ h' q = Some c' /\ c_rc c' = 1).
  Proof.
    intros W P Hp. destruct (copy_wf N h e rk p c W P Hp) as (h' & E & W' & P' & L & Q & A).
    exists h', (length h). eexists. split; [exact E|]. split; [exact W'|]. split; [exact P'|].
    assert (Hn: at_ h (length h) = None) by (apply at_beyond; lia).
    assert (F: forall x, at_ h x <> None -> look h' x = look h x).
    { intros x Hx. apply look_frame.
      - intros y cy Hy Hcy. rewrite A by congruence. rewrite Hcy. cbn. eexists. split; [reflexivity|]. split; reflexivity.
      - intros y Hy. eapply reach_live; eauto. }
    split; [exact Hn|]. split; [|split; [exact F|eexists; split; [exact Q|reflexivity]]].
    rewrite <- (F p) by congruence. apply functional_extensionality. intros [|k path]; cbn [HeapEngine.look]; rewrite Q;
      rewrite A by congruence; rewrite Hp; reflexivity.
  Qed.

  (** ** a new root *)
  Lemma hnew_spec h e rk : wf0 h e rk -> pos h ->
    exists rk', wf0 (h ++ [Some (blank fresh N)]) (fun x => e x + delta (length h) x)%Z rk' /\
      pos (h ++ [Some (blank fresh N)]) /\
      at_ h (length h) = None /\ look (h ++ [Some (blank fresh N)]) (length h) = (fun _ => fresh) /\
      (forall x, at_ h x <> None -> look (h ++ [Some (blank fresh N)]) x = look h x) /\
      at_ (h ++ [Some (blank fresh N)]) (length h) = Some (blank fresh N).
  Proof.
    intros W P. destruct (new_wf fresh N h e rk W P) as [W1 P1]. eexists. split; [exact W1|]. split; [exact P1|].
    assert (Hn: at_ h (length h) = None) by (apply at_beyond; lia). split; [exact Hn|]. split; [|split].
    - apply functional_extensionality. intros [|k path]; cbn [HeapEngine.look]; rewrite at_app_new; cbn [blank c_data c_kids]; [reflexivity|].
      destruct (nth_error (repeat None N) k) as [[q|]|] eqn:E; [|reflexivity|reflexivity].
      apply nth_error_In in E. apply repeat_spec in E. discriminate.
    - intros x Hx. apply look_frame.
      + intros y cy Hy Hcy. exists cy. rewrite at_app_old by congruence. auto.
      + intros y Hy. eapply reach_live; eauto.
    - apply at_app_new.
  Qed.
End roots.
