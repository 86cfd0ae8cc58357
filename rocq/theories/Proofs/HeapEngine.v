(** Copy-on-write updates over shared nodes behave like updates of separate trees. A tree is seen
    through [look]: the data found along each path of slots, [fresh] where there is no node. *)
From Coq Require Import Arith FunctionalExtensionality.
From Verif Require Import Model.Heap Proofs.PyFacts Proofs.HeapFacts.
Local Open Scope nat_scope.

Section engine.
  Context {D : Type} (fresh : D) (N : nat).
  Notation heap := (heap D).
  Notation wf0 := (wf0 (D := D) N).

  Fixpoint look (h : heap) (p : ptr) (path : list nat) : D :=
    match at_ h p with
    | None => fresh
    | Some c =>
        match path with
        | [] => c_data c
        | k :: path' =>
            match nth_error (c_kids c) k with
            | Some (Some q) => look h q path'
            | _ => fresh
            end
        end
    end.

  Definition edge (h : heap) (x y : ptr) : Prop :=
    exists c, at_ h x = Some c /\ In (Some y) (c_kids c).

  Inductive reach (h : heap) (z : ptr) : ptr -> Prop :=
  | reach_refl : reach h z z
  | reach_step x y : reach h z x -> edge h x y -> reach h z y.

  (** reachable from [p] through nodes held only once *)
  Inductive owned (h : heap) (p : ptr) : ptr -> Prop :=
  | owned_refl : owned h p p
  | owned_step x y cy : owned h p x -> edge h x y -> at_ h y = Some cy -> c_rc cy = 1 -> owned h p y.

  Lemma reach_trans h x y z : reach h x y -> reach h y z -> reach h x z.
  Proof. intros H1 H2. induction H2; [exact H1|]. eapply reach_step; eauto. Qed.

  Lemma owned_reach h p x : owned h p x -> reach h p x.
  Proof. intros H. induction H; [constructor|]. eapply reach_step; eauto. Qed.

  Lemma reach_rank h e rk z x : wf0 h e rk -> pos h -> reach h z x -> z = x \/ rk x < rk z.
  Proof.
    intros W P H. induction H as [|x y H IH [c [Hc Hi]]]; [left; reflexivity|right].
    pose proof (w_rank _ _ _ _ W x c y Hc (P x c Hc) Hi). destruct IH as [->|IH]; lia.
  Qed.

  Lemma edge_live h e rk x y : wf0 h e rk -> pos h -> edge h x y -> at_ h y <> None.
  Proof. intros W P [c [Hc Hi]]. exact (w_closed _ _ _ _ W x c y Hc (P x c Hc) Hi). Qed.

  Lemma reach_live h e rk z x : wf0 h e rk -> pos h -> at_ h z <> None -> reach h z x -> at_ h x <> None.
  Proof. intros W P Hz H. induction H as [|x y H IH He]; [exact Hz|]. eapply edge_live; eauto. Qed.

  (** The data reached from a node depends only on the nodes reached. *)
  Lemma look_frame h h' z :
    (forall x c, reach h z x -> at_ h x = Some c ->
       exists c', at_ h' x = Some c' /\ c_data c' = c_data c /\ c_kids c' = c_kids c) ->
    (forall x, reach h z x -> at_ h x <> None) ->
    look h' z = look h z.
  Proof.
    intros H Hl. apply functional_extensionality. intros path. revert z H Hl.
    induction path as [|k path IH]; intros z H Hl; cbn [look].
    - pose proof (Hl z (reach_refl _ _)). destruct (at_ h z) as [c|] eqn:Hz; [|congruence].
      destruct (H z c (reach_refl _ _) Hz) as (c' & -> & Hd & _). exact Hd.
    - pose proof (Hl z (reach_refl _ _)). destruct (at_ h z) as [c|] eqn:Hz; [|congruence].
      destruct (H z c (reach_refl _ _) Hz) as (c' & -> & _ & ->).
      destruct (nth_error (c_kids c) k) as [[q|]|] eqn:Hk; [|reflexivity|reflexivity].
      assert (He: edge h z q) by (exists c; split; [exact Hz|apply nth_error_In with k; exact Hk]).
      assert (T: forall x, reach h q x -> reach h z x).
      { intros x Hx. eapply reach_trans; [|exact Hx]. eapply reach_step; [constructor|exact He]. }
      apply IH; intros; [eapply H|apply Hl]; eauto.
  Qed.

  (** ** who holds a node *)
  Lemma one_holder h e rk x x' y cy : wf0 h e rk -> pos h -> (0 <= e y)%Z ->
    at_ h y = Some cy -> c_rc cy = 1 -> edge h x y -> edge h x' y -> x = x'.
  Proof.
    intros W P He Hy Hr [c [Hc Hi]] [c' [Hc' Hi']].
    destruct (Nat.eq_dec x x') as [|Hne]; [assumption|exfalso].
    pose proof (refs_ge2 h x c x' c' y Hne Hc (P _ _ Hc) Hc' (P _ _ Hc')) as G.
    apply cnt_in in Hi. apply cnt_in in Hi'. pose proof (w_bal _ _ _ _ W y cy Hy). lia.
  Qed.

  Lemma held_outside h e rk x y cy : wf0 h e rk -> pos h -> (1 <= e y)%Z ->
    at_ h y = Some cy -> c_rc cy = 1 -> edge h x y -> False.
  Proof.
    intros W P He Hy Hr [c [Hc Hi]]. pose proof (refs_ge h x c y Hc (P _ _ Hc)) as G.
    apply cnt_in in Hi. pose proof (w_bal _ _ _ _ W y cy Hy). lia.
  Qed.

  Lemma not_owned h e rk q z : wf0 h e rk -> pos h -> (forall x, (0 <= e x)%Z) ->
    ~ reach h z q ->
    (forall y cz, owned h q y -> edge h y z -> at_ h z = Some cz -> c_rc cz = 1 -> False) ->
    forall x, owned h q x -> ~ reach h z x.
  Proof.
    intros W P He Hq Hz x Hx. induction Hx as [|x y cy Hx IH Hxy Hy Hr]; [exact Hq|].
    intros H. inversion H as [Heq|x' y' H1 H2 Heq].
    - subst y. exact (Hz x cy Hx Hxy Hy Hr).
    - subst y'. rewrite (one_holder h e rk x x' y cy W P (He y) Hy Hr Hxy H2) in IH. exact (IH H1).
  Qed.

  (** a root does not reach what another, singly held, root owns *)
  Lemma not_owned_root h e rk p z cp : wf0 h e rk -> pos h -> (forall x, (0 <= e x)%Z) ->
    at_ h p = Some cp -> c_rc cp = 1 -> (1 <= e p)%Z -> (1 <= e z)%Z -> z <> p ->
    forall x, owned h p x -> ~ reach h z x.
  Proof.
    intros W P He Hp Hr Ep Ez Hne. apply (not_owned h e rk p z W P He).
    - intros H. inversion H as [Heq|x' y' H1 H2 Heq]; [congruence|subst].
      exact (held_outside h e rk x' p cp W P Ep Hp Hr H2).
    - intros y cz Hy Hyz Hz Hrz. exact (held_outside h e rk y z cz W P Ez Hz Hrz Hyz).
  Qed.

  (** neither do the other children of a node reach what one child owns *)
  Lemma not_owned_sibling h e rk p cp k k' q d cq : wf0 h e rk -> pos h -> (forall x, (0 <= e x)%Z) ->
    at_ h p = Some cp -> nth_error (c_kids cp) k = Some (Some q) ->
    nth_error (c_kids cp) k' = Some (Some d) -> k <> k' -> at_ h q = Some cq -> c_rc cq = 1 ->
    forall x, owned h q x -> ~ reach h d x.
  Proof.
    intros W P He Hp Hk Hk' Hne Hq Hr.
    assert (Epq: edge h p q) by (exists cp; split; [exact Hp|apply nth_error_In with k; exact Hk]).
    assert (Epd: edge h p d) by (exists cp; split; [exact Hp|apply nth_error_In with k'; exact Hk']).
    assert (Rq: rk q < rk p) by (destruct Epq as (c & Hc & Hi); exact (w_rank _ _ _ _ W p c q Hc (P _ _ Hc) Hi)).
    assert (Rd: rk d < rk p) by (destruct Epd as (c & Hc & Hi); exact (w_rank _ _ _ _ W p c d Hc (P _ _ Hc) Hi)).
    apply (not_owned h e rk q d W P He).
    - intros H. inversion H as [Heq|x' y' H1 H2 Heq].
      + subst d. pose proof (cnt_two _ _ _ _ Hne Hk Hk') as C.
        pose proof (refs_ge h p cp q Hp (P _ _ Hp)). pose proof (w_bal _ _ _ _ W q cq Hq). specialize (He q). lia.
      + subst y'. assert (x' = p) by (eapply (one_holder h e rk x' p q); eauto). subst x'.
        destruct (reach_rank h e rk d p W P H1) as [->|]; lia.
    - intros y cz Hy Hyz Hz Hrz. assert (y = p) by (eapply (one_holder h e rk y p d); eauto). subst y.
      destruct (reach_rank h e rk q p W P (owned_reach _ _ _ Hy)) as [->|]; lia.
  Qed.

  (** ** getting the child to work on *)
  Definition getchild (h : heap) (p : ptr) (k : nat) : result (heap * ptr) :=
    do c <- hget h p;
    match nth_error (c_kids c) k with
    | None => Err OutOfBounds
    | Some None =>
        let '(h, q) := halloc h (blank fresh N) in do h <- put_kid h p k q; Ok (h, q)
    | Some (Some q) =>
        do cc <- hget h q;
        if (1 <? c_rc cc)%nat then
          do h <- decr h q;
          do (h, q') <- hcopy h q;
          do h <- put_kid h p k q';
          Ok (h, q')
        else Ok (h, q)
    end.

  (** Two memories that show the same data everywhere. *)
  Lemma look_new h e rk p c k : wf0 h e rk -> pos h -> at_ h p = Some c ->
    nth_error (c_kids c) k = Some None ->
    forall x, at_ h x <> None ->
    look (list_set (h ++ [Some (blank fresh N)]) p
           (Some (Cell (c_data c) (list_set (c_kids c) k (Some (length h))) (c_rc c)))) x = look h x.
  Proof.
    intros W P Hp Hk. set (h1 := list_set _ _ _).
    pose proof (at_lt _ _ _ Hp) as Hl.
    assert (Hl1: p < length (h ++ [Some (blank fresh N)])) by (rewrite app_length; cbn; lia).
    assert (B: at_ h1 p = Some (Cell (c_data c) (list_set (c_kids c) k (Some (length h))) (c_rc c))) by (apply at_set_same; exact Hl1).
    assert (A: forall x, x <> p -> x <> length h -> at_ h1 x = at_ h x).
    { intros x H1 H2. unfold h1. rewrite at_set_other by exact H1. apply at_app_old. exact H2. }
    assert (Q: at_ h1 (length h) = Some (blank fresh N)).
    { unfold h1. rewrite at_set_other by lia. apply at_app_new. }
    assert (F: forall path, look h1 (length h) path = fresh).
    { intros [|k' path]; cbn [look]; rewrite Q; cbn [blank c_data c_kids]; [reflexivity|].
      destruct (nth_error (repeat None N) k') as [[q|]|] eqn:E; [|reflexivity|reflexivity].
      apply nth_error_In in E. apply repeat_spec in E. discriminate. }
    intros x Hx. apply functional_extensionality. intros path. revert x Hx.
    induction path as [|k' path IH]; intros x Hx.
    - cbn [look]. destruct (Nat.eq_dec x p) as [->|Hne].
      + rewrite B, Hp. reflexivity.
      + rewrite A; [reflexivity|exact Hne|]. intros ->. apply Hx. apply at_beyond. lia.
    - cbn [look]. destruct (Nat.eq_dec x p) as [->|Hne].
      + rewrite B, Hp. cbn [c_kids]. destruct (Nat.eq_dec k' k) as [->|Hk'].
        * rewrite nth_error_list_set_same by (apply nth_error_Some; congruence). rewrite Hk. apply F.
        * rewrite nth_error_list_set_other by congruence.
          destruct (nth_error (c_kids c) k') as [[q|]|] eqn:E; [|reflexivity|reflexivity].
          apply IH. eapply (w_closed _ _ _ _ W p c q Hp (P _ _ Hp)). apply nth_error_In with k'. exact E.
      + rewrite A; [|exact Hne|intros ->; apply Hx; apply at_beyond; lia].
        destruct (at_ h x) as [cx|] eqn:Ex; [|congruence].
        destruct (nth_error (c_kids cx) k') as [[q|]|] eqn:E; [|reflexivity|reflexivity].
        apply IH. eapply (w_closed _ _ _ _ W x cx q Ex (P _ _ Ex)). apply nth_error_In with k'. exact E.
  Qed.

  Lemma look_swap h h1 p c k q q' cq rc1 : at_ h p = Some c -> nth_error (c_kids c) k = Some (Some q) ->
    at_ h q = Some cq -> at_ h q' = None ->
    at_ h1 p = Some (Cell (c_data c) (list_set (c_kids c) k (Some q')) rc1) ->
    at_ h1 q' = Some (Cell (c_data cq) (c_kids cq) 1) ->
    (forall x cx, at_ h x = Some cx -> x <> p ->
       exists rc', at_ h1 x = Some (Cell (c_data cx) (c_kids cx) rc')) ->
    (forall x cx y, at_ h x = Some cx -> In (Some y) (c_kids cx) -> at_ h y <> None) ->
    q <> p ->
    forall x, at_ h x <> None -> look h1 x = look h x.
  Proof.
    intros Hp Hk Hq Hq' B Q A C Hne x Hx. apply functional_extensionality. intros path. revert x Hx.
    assert (Hq'p: q' <> p) by congruence.
    induction path as [|k' path IH]; intros x Hx.
    - cbn [look]. destruct (at_ h x) as [cx|] eqn:Ex; [|congruence]. destruct (Nat.eq_dec x p) as [->|Hxp].
      + rewrite B. cbn [c_data]. congruence.
      + destruct (A x cx Ex Hxp) as [rc' ->]. reflexivity.
    - assert (G: forall cx : cell D, (forall k2 y, nth_error (c_kids cx) k2 = Some (Some y) -> at_ h y <> None) ->
        match nth_error (c_kids cx) k' with Some (Some y) => look h1 y path | _ => fresh end =
        match nth_error (c_kids cx) k' with Some (Some y) => look h y path | _ => fresh end).
      { intros cx Hcx. destruct (nth_error (c_kids cx) k') as [[y|]|] eqn:E; [|reflexivity|reflexivity]. apply IH. eapply Hcx. exact E. }
      assert (C': forall x cx, at_ h x = Some cx -> forall k2 y, nth_error (c_kids cx) k2 = Some (Some y) -> at_ h y <> None).
      { intros x0 cx Hx0 k2 y Hy. eapply C; [exact Hx0|]. apply nth_error_In with k2. exact Hy. }
      cbn [look]. destruct (at_ h x) as [cx|] eqn:Ex; [|congruence]. destruct (Nat.eq_dec x p) as [->|Hxp].
      + rewrite B. assert (cx = c) by congruence. subst cx. cbn [c_kids]. destruct (Nat.eq_dec k' k) as [->|Hk'].
        * rewrite nth_error_list_set_same by (apply nth_error_Some; congruence). rewrite Hk.
          rewrite <- (IH q) by congruence. destruct path as [|k2 path]; cbn [look]; rewrite Q; destruct (A q cq Hq Hne) as [rc' ->]; reflexivity.
        * rewrite nth_error_list_set_other by congruence. apply (G c). eapply C'. exact Hp.
      + destruct (A x cx Ex Hxp) as [rc' ->]. cbn [c_kids]. apply (G cx). eapply C'. exact Ex.
  Qed.

  (** What [getchild] leaves: the child is now held by this node alone, everything looks the
      same, and no node that the child reaches or owns is new to the parent. *)
  Lemma getchild_spec h e rk p c k : wf0 h e rk -> pos h -> (forall x, (0 <= e x)%Z) ->
    at_ h p = Some c -> k < N ->
    exists h1 q rk1 cq,
      getchild h p k = Ok (h1, q) /\ wf0 h1 e rk1 /\ pos h1 /\
      at_ h1 p = Some (Cell (c_data c) (list_set (c_kids c) k (Some q)) (c_rc c)) /\
      at_ h1 q = Some cq /\ c_rc cq = 1 /\
      (forall x, at_ h x <> None -> look h1 x = look h x) /\
      (forall x cx, at_ h x = Some cx -> x <> p ->
         exists rc', at_ h1 x = Some (Cell (c_data cx) (c_kids cx) rc')) /\
      (forall x cx, at_ h x = Some cx -> ~ reach h p x -> at_ h1 x = Some cx) /\
      (forall x, at_ h x <> None -> reach h1 q x -> reach h p x) /\
      (forall x, at_ h x <> None -> owned h1 q x -> owned h p x).
  Proof.
    intros W P He Hp Hk. unfold getchild. rewrite (hget_ok _ _ _ Hp). cbn [bind].
    pose proof (at_lt _ _ _ Hp) as Hl.
    destruct (nth_error (c_kids c) k) as [[q|]|] eqn:Ek.
    2: {
      (* a new child *)
      cbn [halloc]. destruct (new_wf fresh N h e rk W P) as [W1 P1].
      assert (Hp1: at_ (h ++ [Some (blank fresh N)]) p = Some c) by (rewrite at_app_old by lia; exact Hp).
      destruct (put_kid_wf N _ _ _ p c k None (length h) W1 P1 Hp1 Ek) as (E & W2 & P2).
      { rewrite at_app_new. discriminate. }
      { destruct (Nat.eq_dec (length h) (length h)); [|congruence]. destruct (Nat.eq_dec (length h) p); lia. }
      rewrite E. cbn [bind].
      set (h1 := list_set _ _ _) in *.
      assert (Hl1: p < length (h ++ [Some (blank fresh N)])) by (rewrite app_length; cbn; lia).
      assert (B: at_ h1 p = Some (Cell (c_data c) (list_set (c_kids c) k (Some (length h))) (c_rc c))) by (apply at_set_same; exact Hl1).
      assert (Q: at_ h1 (length h) = Some (blank fresh N)).
      { unfold h1. rewrite at_set_other by lia. apply at_app_new. }
      assert (A: forall x cx, at_ h x = Some cx -> x <> p -> at_ h1 x = Some cx).
      { intros x cx Hx Hxp. unfold h1. rewrite at_set_other by exact Hxp. rewrite at_app_old; [exact Hx|].
        intros ->. rewrite at_beyond in Hx by lia. discriminate. }
      assert (NR: forall x, reach h1 (length h) x -> x = length h).
      { intros x Hx. induction Hx as [|x y Hx IH [cx [Hcx Hi]]]; [reflexivity|exfalso].
        rewrite IH, Q in Hcx. injection Hcx as <-. apply repeat_spec in Hi. discriminate. }
      assert (Hlen: at_ h (length h) = None) by (apply at_beyond; lia).
      eexists h1, (length h), _, (blank fresh N). split; [reflexivity|].
      split; [eapply wf0_ext_eq; [|exact W2]; intros x; cbv beta; lia|].
      split; [exact P2|]. split; [exact B|]. split; [exact Q|]. split; [reflexivity|].
      split; [exact (look_new h e rk p c k W P Hp Ek)|].
      split; [intros x cx Hx Hxp; exists (c_rc cx); rewrite (A x cx Hx Hxp); destruct cx; reflexivity|].
      split; [intros x cx Hx Hr; apply A; [exact Hx|intros ->; apply Hr; constructor]|].
      split; [intros x Hx Hr; rewrite (NR x Hr) in Hx; congruence|].
      intros x Hx Ho. apply owned_reach in Ho. rewrite (NR x Ho) in Hx. congruence. }
    2: { apply nth_error_None in Ek. rewrite (w_shape _ _ _ _ W p c Hp) in Ek. lia. }
    assert (Epq: edge h p q) by (exists c; split; [exact Hp|apply nth_error_In with k; exact Ek]).
    assert (Hrk: rk q < rk p).
    { eapply (w_rank _ _ _ _ W p c q Hp (P _ _ Hp)). apply nth_error_In with k. exact Ek. }
    assert (Hqp: q <> p) by (intros ->; lia).
    pose proof (edge_live h e rk p q W P Epq) as Lq.
    destruct (at_ h q) as [cq|] eqn:Hq; [|congruence]. rewrite (hget_ok _ _ _ Hq). cbn [bind].
    destruct (1 <? c_rc cq) eqn:E1.
    - (* shared: copy *)
      apply Nat.ltb_lt in E1.
      destruct (decr_wf N h e rk q cq W P Hq E1) as (Ed & W1 & P1). rewrite Ed. cbn [bind].
      set (h1 := list_set h q _) in *.
      assert (Hq1: at_ h1 q = Some (Cell (c_data cq) (c_kids cq) (c_rc cq - 1))) by (apply at_set_same; eapply at_lt; exact Hq).
      assert (O1: forall x, x <> q -> at_ h1 x = at_ h x) by (intros; apply at_set_other; auto).
      destruct (copy_wf N h1 _ rk q _ W1 P1 Hq1) as (h2 & Ec & W2 & P2 & L2 & Hn2 & O2). rewrite Ec. cbn [bind c_data c_kids] in *.
      assert (Ll: length h1 = length h) by apply list_set_length. rewrite Ll in *.
      assert (Hlen: at_ h (length h) = None) by (apply at_beyond; lia).
      assert (Kp: cnt (c_kids cq) p = 0).
      { destruct (cnt (c_kids cq) p) eqn:E0; [reflexivity|]. exfalso.
        assert (I: In (Some p) (c_kids cq)) by (apply cnt_in; lia).
        pose proof (w_rank _ _ _ _ W q cq p Hq (P _ _ Hq) I). lia. }
      assert (Hp2: at_ h2 p = Some c).
      { rewrite O2 by lia. rewrite O1 by congruence. rewrite Hp. cbn. unfold bump. rewrite Kp, Nat.add_0_r. destruct c; reflexivity. }
      destruct (put_kid_wf N h2 _ _ p c k (Some q) (length h) W2 P2 Hp2 Ek) as (Ep & W3 & P3).
      { congruence. }
      { destruct (Nat.eq_dec (length h) (length h)); [|congruence]. destruct (Nat.eq_dec (length h) p); lia. }
      rewrite Ep. cbn [bind]. set (h3 := list_set h2 p _) in *.
      assert (B: at_ h3 p = Some (Cell (c_data c) (list_set (c_kids c) k (Some (length h))) (c_rc c))) by (apply at_set_same; lia).
      assert (O3: forall x, x <> p -> at_ h3 x = at_ h2 x) by (intros; apply at_set_other; auto).
      assert (Q: at_ h3 (length h) = Some (Cell (c_data cq) (c_kids cq) 1)) by (rewrite O3 by lia; exact Hn2).
      assert (A: forall x cx, at_ h x = Some cx -> x <> p ->
        at_ h3 x = Some (Cell (c_data cx) (c_kids cx) (c_rc cx - (if Nat.eq_dec q x then 1 else 0) + cnt (c_kids cq) x))).
      { intros x cx Hx Hxp. rewrite O3 by exact Hxp. assert (x <> length h) by congruence. rewrite O2 by assumption.
        destruct (Nat.eq_dec q x) as [<-|Hxq].
        - rewrite Hq1. assert (cx = cq) by congruence. subst cx. reflexivity.
        - rewrite O1 by congruence. rewrite Hx. cbn. unfold bump. rewrite Nat.sub_0_r. reflexivity. }
      assert (C: forall x cx y, at_ h x = Some cx -> In (Some y) (c_kids cx) -> at_ h y <> None).
      { intros x cx y Hx Hi. exact (w_closed _ _ _ _ W x cx y Hx (P _ _ Hx) Hi). }
      assert (We: wf0 h3 e (fun x => if Nat.eq_dec (length h) x then rk q else rk x)).
      { eapply wf0_ext_eq; [|exact W3]. intros x. cbv beta. lia. }
      assert (NR: forall x, reach h3 (length h) x -> x = length h \/ (x <> p /\ reach h p x)).
      { intros x Hx. assert (Hx': length h = x \/ (if Nat.eq_dec (length h) x then rk q else rk x) < rk q).
        { destruct (reach_rank h3 _ _ _ _ We P3 Hx) as [->|L]; [left; reflexivity|right].
          destruct (Nat.eq_dec (length h) (length h)); [exact L|congruence]. }
        induction Hx as [|x y Hx IH [cx [Hcx Hi]]]; [left; reflexivity|].
        assert (Hx2: length h = x \/ (if Nat.eq_dec (length h) x then rk q else rk x) < rk q).
        { destruct (reach_rank h3 _ _ _ _ We P3 Hx) as [->|L]; [left; reflexivity|right].
          destruct (Nat.eq_dec (length h) (length h)); [exact L|congruence]. }
        destruct (Nat.eq_dec (length h) y) as [Hy|Hy]; [left; auto|right].
        destruct Hx' as [Hx'|Hx']; [congruence|]. split; [intros ->; lia|].
        destruct (IH Hx2) as [->|[Hxp Hr]].
        - rewrite Q in Hcx. injection Hcx as <-. cbn [c_kids] in Hi.
          eapply reach_step; [eapply reach_step; [constructor|exact Epq]|]. exists cq. split; assumption.
        - eapply reach_step; [exact Hr|]. pose proof (reach_live h e rk p x W P ltac:(congruence) Hr) as Lx.
          destruct (at_ h x) as [cx'|] eqn:Ex; [|congruence]. rewrite (A x cx' Ex Hxp) in Hcx. injection Hcx as <-.
          exists cx'. split; assumption. }
      eexists h3, (length h), _, _. split; [reflexivity|]. split; [exact We|].
      split; [exact P3|]. split; [exact B|]. split; [exact Q|]. split; [reflexivity|].
      split; [|split; [|split; [|split]]].
      + eapply look_swap; [exact Hp|exact Ek|exact Hq|exact Hlen|exact B|exact Q| |exact C|exact Hqp].
        intros x cx Hx Hxp. eexists. apply A; assumption.
      + intros x cx Hx Hxp. eexists. apply A; assumption.
      + intros x cx Hx Hr. assert (Hxp: x <> p) by (intros ->; apply Hr; constructor). rewrite (A x cx Hx Hxp).
        destruct (Nat.eq_dec q x) as [<-|_]; [exfalso; apply Hr; eapply reach_step; [constructor|exact Epq]|].
        assert (cnt (c_kids cq) x = 0) as ->.
        { destruct (cnt (c_kids cq) x) eqn:E0; [reflexivity|]. exfalso. apply Hr.
          eapply reach_step; [eapply reach_step; [constructor|exact Epq]|]. exists cq. split; [exact Hq|apply cnt_in; lia]. }
        rewrite Nat.sub_0_r, Nat.add_0_r. destruct cx; reflexivity.
      + intros x Hx Hr. destruct (NR x Hr) as [->|[_ H]]; [congruence|exact H].
      + (* the copy owns nothing but itself *)
        intros x Hx Ho. exfalso. assert (OW: x = length h); [|congruence]. clear Hx.
        induction Ho as [|x y cy Ho IH [cx [Hcx Hi]] Hy Hr]; [reflexivity|exfalso].
        rewrite IH, Q in Hcx. injection Hcx as <-. cbn [c_kids] in Hi.
        pose proof (C q cq y Hq Hi) as Ly. destruct (at_ h y) as [cy'|] eqn:Ey; [|congruence].
        assert (Hyp: y <> p) by (intros ->; apply cnt_in in Hi; lia).
        assert (Hyq: q <> y) by (intros <-; pose proof (w_rank _ _ _ _ W q cq q Hq (P _ _ Hq) Hi); lia).
        rewrite (A y cy' Ey Hyp) in Hy. injection Hy as <-. cbn [c_rc] in Hr.
        destruct (Nat.eq_dec q y); [congruence|]. apply cnt_in in Hi. pose proof (P y cy' Ey). lia.
    - (* held once *)
      apply Nat.ltb_ge in E1. assert (R1: c_rc cq = 1) by (pose proof (P _ _ Hq); lia).
      assert (Es: list_set (c_kids c) k (Some q) = c_kids c).
      { clear -Ek. revert k Ek. induction (c_kids c) as [|o l IH]; intros [|k] E; try discriminate; cbn in *.
        - congruence.
        - rewrite IH by exact E. reflexivity. }
      exists h, q, rk, cq. split; [reflexivity|]. split; [exact W|]. split; [exact P|].
      split; [rewrite Es, Hp; destruct c; reflexivity|]. split; [exact Hq|]. split; [exact R1|].
      split; [reflexivity|]. split; [intros x cx Hx _; exists (c_rc cx); rewrite Hx; destruct cx; reflexivity|].
      split; [intros; assumption|]. split.
      + intros x _ Hr. eapply reach_trans; [|exact Hr]. eapply reach_step; [constructor|exact Epq].
      + intros x _ Ho. induction Ho as [|x y cy Ho IH Hxy Hy Hr].
        * eapply owned_step; [constructor|exact Epq|exact Hq|exact R1].
        * eapply owned_step; eauto.
  Qed.
End engine.
