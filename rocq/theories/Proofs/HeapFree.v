(** [ctwnode_free] gives back exactly the nodes nothing refers to any more. *)
From Coq Require Import Arith.
From Verif Require Import Model.ModelFast Proofs.PyFacts Proofs.HeapFacts Proofs.HeapEngine.
Local Open Scope nat_scope.

Section free.
  Variables (N : nat) (fresh : kdata).
  Notation heap := (heap kdata).
  Notation wf0 := (wf0 (D := kdata) N).

  (** what is left of the memory *)
  Record freed (h h' : heap) : Prop := {
    f_len : length h' = length h;
    f_some : forall x c, at_ h x = Some c ->
      at_ h' x = None \/ exists c', at_ h' x = Some c' /\ c_data c' = c_data c /\ c_kids c' = c_kids c /\ c_rc c' <= c_rc c;
    f_none : forall x, at_ h x = None -> at_ h' x = None;
    f_dying : forall x c, at_ h x = Some c -> c_rc c = 0 -> at_ h' x = Some c;
    f_new : forall x c', at_ h' x = Some c' -> c_rc c' = 0 -> exists c, at_ h x = Some c /\ c_rc c = 0 }.

  Lemma freed_refl h : freed h h.
  Proof.
    split; auto.
    - intros x c H. right. exists c. auto.
    - intros x c H H0. exists c. auto.
  Qed.

  Lemma freed_trans h1 h2 h3 : freed h1 h2 -> freed h2 h3 -> freed h1 h3.
  Proof.
    intros A B. split.
    - rewrite (f_len _ _ B). apply A.
    - intros x c H. destruct (f_some _ _ A x c H) as [H2|(c2 & H2 & D2 & K2 & R2)].
      + left. exact (f_none _ _ B x H2).
      + destruct (f_some _ _ B x c2 H2) as [H3|(c3 & H3 & D3 & K3 & R3)]; [left; exact H3|right].
        exists c3. repeat split; try congruence. lia.
    - intros x H. apply (f_none _ _ B), (f_none _ _ A), H.
    - intros x c H H0. apply (f_dying _ _ B); [|exact H0]. apply (f_dying _ _ A); auto.
    - intros x c' H H0. destruct (f_new _ _ B x c' H H0) as (c & Hc & Hc0). exact (f_new _ _ A x c Hc Hc0).
  Qed.

  (** an outside reference keeps a node alive *)
  Lemma held h e rk p : wf0 h e rk -> (1 <= e p)%Z -> exists c, at_ h p = Some c /\ 1 <= c_rc c.
  Proof.
    intros W Hp. destruct (at_ h p) as [c|] eqn:H.
    - exists c. split; [reflexivity|]. pose proof (w_bal _ _ _ _ W p c H). lia.
    - pose proof (w_ext _ _ _ _ W p H). lia.
  Qed.

  (** the count of a node goes to zero: its slots no longer count *)
  Lemma dying_wf h e rk p c : wf0 h e rk -> (forall x, 0 <= e x)%Z -> (1 <= e p)%Z ->
    at_ h p = Some c -> c_rc c = 1 ->
    wf0 (list_set h p (Some (Cell (c_data c) (c_kids c) 0)))
        (fun x => e x - delta p x + Z.of_nat (cnt (c_kids c) x))%Z rk.
  Proof.
    intros W He Hp H Hc. pose proof (at_lt _ _ _ H) as Hl.
    set (c' := Cell (c_data c) (c_kids c) 0).
    assert (A: forall x, x <> p -> at_ (list_set h p (Some c')) x = at_ h x) by (intros; apply at_set_other; auto).
    assert (B: at_ (list_set h p (Some c')) p = Some c') by (apply at_set_same; exact Hl).
    assert (Hc0: c_rc c <> 0) by lia.
    assert (RF: forall x, refs (list_set h p (Some c')) x + cnt (c_kids c) x = refs h x).
    { intros x. pose proof (refs_set h p (Some c') x Hl) as E. rewrite H in E. cbn [wt] in E.
      rewrite (proj2 (Nat.eqb_neq _ _) Hc0) in E. cbn in E. lia. }
    assert (Hn: forall y, In (Some y) (c_kids c) -> y <> p).
    { intros y Hy ->. pose proof (w_rank _ _ _ _ W p c p H Hc0 Hy). lia. }
    assert (Hcp: cnt (c_kids c) p = 0).
    { destruct (cnt (c_kids c) p) eqn:E; [reflexivity|]. exfalso. apply (Hn p); [apply cnt_in; lia|reflexivity]. }
    split.
    - intros x cx Hx. specialize (RF x). destruct (Nat.eq_dec x p) as [->|Hne].
      + rewrite B in Hx. injection Hx as <-. cbn [c' c_rc]. rewrite delta_same. pose proof (w_bal _ _ _ _ W p c H). specialize (He p). lia.
      + rewrite A in Hx by exact Hne. rewrite delta_other by congruence. pose proof (w_bal _ _ _ _ W x cx Hx). lia.
    - intros x cx y Hx Hr Hi. destruct (Nat.eq_dec x p) as [->|Hne].
      + rewrite B in Hx. injection Hx as <-. cbn in Hr. congruence.
      + rewrite A in Hx by exact Hne. pose proof (w_closed _ _ _ _ W x cx y Hx Hr Hi).
        destruct (Nat.eq_dec y p) as [->|Hy]; [rewrite B; discriminate|rewrite A by exact Hy; assumption].
    - intros x cx y Hx Hr Hi. destruct (Nat.eq_dec x p) as [->|Hne].
      + rewrite B in Hx. injection Hx as <-. cbn in Hr. congruence.
      + rewrite A in Hx by exact Hne. exact (w_rank _ _ _ _ W x cx y Hx Hr Hi).
    - intros x Hx. rewrite list_set_length. apply (w_bound _ _ _ _ W). destruct (Nat.eq_dec x p) as [->|Hne]; [congruence|].
      rewrite A in Hx by exact Hne. exact Hx.
    - intros x cx Hx. destruct (Nat.eq_dec x p) as [->|Hne].
      + rewrite B in Hx. injection Hx as <-. exact (w_shape _ _ _ _ W p c H).
      + rewrite A in Hx by exact Hne. exact (w_shape _ _ _ _ W x cx Hx).
    - intros x Hx. destruct (Nat.eq_dec x p) as [->|Hne]; [rewrite B in Hx; discriminate|].
      rewrite A in Hx by exact Hne. rewrite (w_ext _ _ _ _ W x Hx), delta_other by congruence.
      destruct (cnt (c_kids c) x) eqn:E; [reflexivity|]. exfalso.
      apply (w_closed _ _ _ _ W p c x H Hc0); [apply cnt_in; lia|exact Hx].
  Qed.

  (** giving back a node whose count is zero *)
  Lemma remove_wf h e rk p c : wf0 h e rk -> (forall x, 0 <= e x)%Z ->
    at_ h p = Some c -> c_rc c = 0 -> wf0 (list_set h p None) e rk.
  Proof.
    intros W He H Hc. pose proof (at_lt _ _ _ H) as Hl.
    assert (A: forall x, x <> p -> at_ (list_set h p None) x = at_ h x) by (intros; apply at_set_other; auto).
    assert (B: at_ (list_set h p None) p = None) by (apply at_set_same; exact Hl).
    assert (RF: forall x, refs (list_set h p None) x = refs h x).
    { intros x. pose proof (refs_set h p None x Hl) as E. rewrite H in E. cbn [wt] in E. rewrite Hc in E. cbn in E. lia. }
    pose proof (w_bal _ _ _ _ W p c H) as Hb. specialize (He p) as Hep.
    split.
    - intros x cx Hx. rewrite RF. destruct (Nat.eq_dec x p) as [->|Hne]; [congruence|]. rewrite A in Hx by exact Hne.
      exact (w_bal _ _ _ _ W x cx Hx).
    - intros x cx y Hx Hr Hi. destruct (Nat.eq_dec x p) as [->|Hne]; [congruence|]. rewrite A in Hx by exact Hne.
      destruct (Nat.eq_dec y p) as [->|Hy].
      + pose proof (refs_ge h x cx p Hx Hr). apply cnt_in in Hi. lia.
      + rewrite A by exact Hy. exact (w_closed _ _ _ _ W x cx y Hx Hr Hi).
    - intros x cx y Hx Hr Hi. destruct (Nat.eq_dec x p) as [->|Hne]; [congruence|]. rewrite A in Hx by exact Hne.
      exact (w_rank _ _ _ _ W x cx y Hx Hr Hi).
    - intros x Hx. rewrite list_set_length. destruct (Nat.eq_dec x p) as [->|Hne]; [congruence|]. rewrite A in Hx by exact Hne.
      exact (w_bound _ _ _ _ W x Hx).
    - intros x cx Hx. destruct (Nat.eq_dec x p) as [->|Hne]; [congruence|]. rewrite A in Hx by exact Hne.
      exact (w_shape _ _ _ _ W x cx Hx).
    - intros x Hx. destruct (Nat.eq_dec x p) as [->|Hne]; [lia|]. rewrite A in Hx by exact Hne. exact (w_ext _ _ _ _ W x Hx).
  Qed.

  Theorem free_spec fuel : forall h e rk p, wf0 h e rk -> (forall x, 0 <= e x)%Z -> (1 <= e p)%Z -> rk p < fuel ->
    exists h', ctwnode_free fuel h p = Ok h' /\ wf0 h' (fun x => e x - delta p x)%Z rk /\ freed h h'.
  Proof.
    induction fuel as [|fuel IH]; intros h e rk p W He Hp Hf; [lia|].
    destruct (held h e rk p W Hp) as (c & H & Hc). pose proof (at_lt _ _ _ H) as Hl.
    set (c1 := Cell (c_data c) (c_kids c) (c_rc c - 1)). set (h1 := list_set h p (Some c1)).
    assert (B1: at_ h1 p = Some c1) by (apply at_set_same; exact Hl).
    assert (Ed: decr h p = Ok h1).
    { unfold decr. rewrite (hget_ok _ _ _ H). cbn [bind]. unfold h1, c1. destruct (c_rc c) as [|n]; [lia|].
      replace (S n - 1) with n by lia. apply hput_ok with c. exact H. }
    cbn [ctwnode_free]. rewrite Ed. cbn [bind]. rewrite (hget_ok _ _ _ B1). cbn [bind c1 c_rc c_kids].
    destruct (Nat.eq_dec (c_rc c) 1) as [E1|E1].
    - (* the last reference *)
      assert (Ec1: c1 = Cell (c_data c) (c_kids c) 0) by (unfold c1; rewrite E1; reflexivity).
      replace (c_rc c - 1 =? 0) with true by (rewrite E1; reflexivity).
      assert (W1: wf0 h1 (fun x => e x - delta p x + Z.of_nat (cnt (c_kids c) x))%Z rk).
      { unfold h1. rewrite Ec1. apply dying_wf; assumption. }
      match goal with |- exists _, bind (?L (c_kids c) h1) _ = _ /\ _ => set (loop := L) end.
      assert (LS: forall kids g, wf0 g (fun x => e x - delta p x + Z.of_nat (cnt kids x))%Z rk ->
        (forall y, In (Some y) kids -> rk y < rk p) ->
        exists g', loop kids g = Ok g' /\ wf0 g' (fun x => e x - delta p x)%Z rk /\ freed g g').
      { induction kids as [|o kids IHk]; intros g Wg Hk.
        - exists g. split; [reflexivity|]. split; [|apply freed_refl]. eapply wf0_ext_eq; [|exact Wg]. intros x. cbn. lia.
        - destruct o as [q|].
          + destruct (IH g _ rk q Wg) as (g1 & Eg & Wg1 & Fg).
            * intros x. cbv beta. unfold delta. destruct (Nat.eq_dec p x) as [<-|]; [lia|]. specialize (He x). lia.
            * cbv beta. rewrite cnt_cons. destruct (odec (Some q) (Some q)); [|congruence].
              unfold delta. destruct (Nat.eq_dec p q) as [<-|]; [|specialize (He q)]; lia.
            * pose proof (Hk q (or_introl eq_refl)). lia.
            * destruct (IHk g1) as (g2 & Eg2 & Wg2 & Fg2).
              -- eapply wf0_ext_eq; [|exact Wg1]. intros x. cbv beta. rewrite cnt_cons. unfold delta.
                 destruct (odec (Some q) (Some x)), (Nat.eq_dec q x); try congruence; lia.
              -- intros y Hy. apply Hk. right. exact Hy.
              -- exists g2. cbn [loop]. rewrite Eg. cbn [bind]. split; [exact Eg2|]. split; [exact Wg2|].
                 eapply freed_trans; eassumption.
          + destruct (IHk g) as (g2 & Eg2 & Wg2 & Fg2).
            * eapply wf0_ext_eq; [|exact Wg]. intros x. cbv beta. rewrite cnt_cons. destruct (odec None (Some x)); [discriminate|]. lia.
            * intros y Hy. apply Hk. right. exact Hy.
            * exists g2. auto. }
      destruct (LS (c_kids c) h1 W1) as (h2 & E2 & W2 & F2).
      { intros y Hy. apply (w_rank _ _ _ _ W p c y H); [lia|exact Hy]. }
      rewrite E2. cbn [bind].
      assert (B2: at_ h2 p = Some c1) by (apply (f_dying _ _ F2); [exact B1|rewrite Ec1; reflexivity]).
      exists (list_set h2 p None). split; [unfold hfree; rewrite (hget_ok _ _ _ B2); reflexivity|].
      assert (Hl2: p < length h2) by (eapply at_lt; exact B2).
      assert (A1: forall x, x <> p -> at_ h1 x = at_ h x) by (intros; apply at_set_other; auto).
      assert (A3: forall x, x <> p -> at_ (list_set h2 p None) x = at_ h2 x) by (intros; apply at_set_other; auto).
      assert (B3: at_ (list_set h2 p None) p = None) by (apply at_set_same; exact Hl2).
      split.
      + eapply remove_wf; [exact W2| |exact B2|rewrite Ec1; reflexivity].
        intros x. unfold delta. destruct (Nat.eq_dec p x) as [<-|]; [lia|]. specialize (He x). lia.
      + split.
        * rewrite list_set_length, (f_len _ _ F2). apply list_set_length.
        * intros x cx Hx. destruct (Nat.eq_dec x p) as [->|Hne]; [left; exact B3|]. rewrite A3 by exact Hne.
          apply (f_some _ _ F2). rewrite A1 by exact Hne. exact Hx.
        * intros x Hx. destruct (Nat.eq_dec x p) as [->|Hne]; [congruence|]. rewrite A3 by exact Hne. apply (f_none _ _ F2).
          rewrite A1 by exact Hne. exact Hx.
        * intros x cx Hx H0. destruct (Nat.eq_dec x p) as [->|Hne]; [rewrite H in Hx; injection Hx as <-; lia|].
          rewrite A3 by exact Hne. apply (f_dying _ _ F2); [|exact H0]. rewrite A1 by exact Hne. exact Hx.
        * intros x cx Hx H0. destruct (Nat.eq_dec x p) as [->|Hne]; [congruence|]. rewrite A3 in Hx by exact Hne.
          destruct (f_new _ _ F2 x cx Hx H0) as (c0 & Hc0 & Hr0). exists c0. rewrite A1 in Hc0 by exact Hne. auto.
    - (* others still hold it *)
      replace (c_rc c - 1 =? 0) with false by (symmetry; apply Nat.eqb_neq; lia).
      exists h1. split; [reflexivity|]. split.
      + eapply wf0_ext_eq; [|eapply (wf0_put N h e rk p c c1 W H); unfold c1; cbn; [reflexivity|lia|lia]].
        intros x. unfold c1, delta. cbn [c_rc]. destruct (Nat.eq_dec p x); lia.
      + assert (A1: forall x, x <> p -> at_ h1 x = at_ h x) by (intros; apply at_set_other; auto).
        split.
        * apply list_set_length.
        * intros x cx Hx. right. destruct (Nat.eq_dec x p) as [->|Hne].
          -- rewrite H in Hx. injection Hx as <-. exists c1. split; [exact B1|]. unfold c1. cbn. repeat split; lia.
          -- exists cx. rewrite A1 by exact Hne. auto.
        * intros x Hx. destruct (Nat.eq_dec x p) as [->|Hne]; [congruence|]. rewrite A1 by exact Hne. exact Hx.
        * intros x cx Hx H0. destruct (Nat.eq_dec x p) as [->|Hne]; [rewrite H in Hx; injection Hx as <-; lia|].
          rewrite A1 by exact Hne. exact Hx.
        * intros x cx Hx H0. destruct (Nat.eq_dec x p) as [->|Hne].
          -- rewrite B1 in Hx. injection Hx as <-. cbn in H0. lia.
          -- exists cx. rewrite A1 in Hx by exact Hne. auto.
  Qed.

  Definition cdel (h : heap) (p : ptr) : result heap := ctwnode_free (S (length h)) h p.

  Lemma cdel_ok : forall h e rk p c, wf0 h e rk -> pos h -> (forall x, (0 <= e x)%Z) ->
    at_ h p = Some c -> c_rc c = 1 -> (1 <= e p)%Z ->
    exists h' rk', cdel h p = Ok h' /\
      wf0 h' (fun x => e x - (if true then delta p x else 0))%Z rk' /\ pos h' /\
      forall z cz, z <> p -> (1 <= e z)%Z -> at_ h z = Some cz -> c_rc cz = 1 ->
        look fresh h' z = look fresh h z /\ exists cz', at_ h' z = Some cz' /\ c_rc cz' = 1.
  Proof.
    intros h e rk p c W P He H Hc Hp.
    assert (Hrk: rk p < length h) by (apply (w_bound _ _ _ _ W); congruence).
    destruct (free_spec (S (length h)) h e rk p W He Hp) as (h' & E & W' & F); [lia|].
    exists h', rk. split; [exact E|]. split; [exact W'|].
    assert (P': pos h').
    { intros x cx Hx H0. destruct (f_new _ _ F x cx Hx H0) as (c0 & Hc0 & Hr0). exact (P x c0 Hc0 Hr0). }
    split; [exact P'|]. intros z cz Hz Hez Haz Hrz.
    destruct (held h' _ rk z W') as (cz' & Hz' & Hrz'); [rewrite delta_other by congruence; lia|].
    assert (KEEP: forall x, at_ h' x <> None -> forall c, at_ h x = Some c ->
      exists c', at_ h' x = Some c' /\ c_data c' = c_data c /\ c_kids c' = c_kids c).
    { intros x Hx c0 H0. destruct (f_some _ _ F x c0 H0) as [|(c' & G & D & K & _)]; [congruence|]. eauto. }
    assert (LIVE: forall x, reach h z x -> at_ h' x <> None).
    { intros x Hx. induction Hx as [|x y Hx IHx (cx & Hcx & Hi)]; [congruence|].
      destruct (KEEP x IHx cx Hcx) as (cx' & Hcx' & _ & K). rewrite <- K in Hi.
      exact (w_closed _ _ _ _ W' x cx' y Hcx' (P' x cx' Hcx') Hi). }
    split.
    - apply look_frame.
      + intros x cx Hx Hcx. apply KEEP; [apply LIVE; exact Hx|exact Hcx].
      + intros x Hx. eapply reach_live; [exact W|exact P| |exact Hx]. congruence.
    - exists cz'. split; [exact Hz'|]. destruct (f_some _ _ F z cz Haz) as [|(c' & G & _ & _ & R)]; [congruence|].
      rewrite Hz' in G. injection G as <-. lia.
  Qed.

  (** without references from outside nothing is left *)
  Lemma no_leak h rk : wf0 h (fun _ => 0%Z) rk -> pos h -> forall x, at_ h x = None.
  Proof.
    intros W P.
    (* a node of greatest rank is referred to by no node *)
    assert (G: forall n x, length h - rk x <= n -> at_ h x = None).
    { induction n as [|n IHn]; intros x Hn; destruct (at_ h x) as [c|] eqn:H; try reflexivity; exfalso.
      - pose proof (w_bound _ _ _ _ W x ltac:(congruence)). lia.
      - pose proof (w_bal _ _ _ _ W x c H) as B. pose proof (P x c H) as Hc.
        destruct (refs_from h x) as (p & cp & Hp & Hrp & Hi); [lia|].
        pose proof (w_rank _ _ _ _ W p cp x Hp Hrp Hi).
        pose proof (w_bound _ _ _ _ W x ltac:(congruence)).
        rewrite (IHn p) in Hp by lia. discriminate. }
    intros x. apply (G (length h - rk x)). lia.
  Qed.
End free.
