(** Programs over any number of objects whose trees share nodes return what they would return
    with deep copies. The objects here are pairs (depth, root). *)
From Coq Require Import Arith FunctionalExtensionality.
From Verif Require Import Model.Heap Spec.Objects Proofs.PyFacts Proofs.HeapFacts Proofs.HeapEngine Proofs.HeapUpdate.
Local Open Scope nat_scope.

Section world.
  Context {D : Type} (fresh : D) (N : nat).
  Notation heap := (heap D).
  Notation wf0 := (wf0 (D := D) N).
  Notation look := (look fresh).
  Variable keyf : nat -> Z -> result nat.
  Hypothesis keyf_lt : forall n c k, keyf n c = Ok k -> k < n.
  Variables (ctxf : Z -> Z -> list Z -> result (list Z))
    (step1 : Z -> list Z -> R -> D -> result D) (leaf : D -> D * R) (node : D -> R -> D * R)
    (pred : Z -> list Z -> D -> result R) (pleaf : D -> R -> R) (pnode : D -> R -> R -> R).
  (** what deleting an object does to its root, and whether that gives up the reference *)
  Variables (hdel : heap -> ptr -> result heap) (freeing : bool).
  Hypothesis hdel_ok : forall h e rk p c, wf0 h e rk -> pos h -> (forall x, (0 <= e x)%Z) ->
    at_ h p = Some c -> c_rc c = 1 -> (1 <= e p)%Z ->
    exists h' rk', hdel h p = Ok h' /\
      wf0 h' (fun x => e x - (if freeing then delta p x else 0))%Z rk' /\ pos h' /\
      forall z cz, z <> p -> (1 <= e z)%Z -> at_ h z = Some cz -> c_rc cz = 1 ->
        look h' z = look h z /\ exists cz', at_ h' z = Some cz' /\ c_rc cz' = 1.

  (** ** the objects and their nodes *)
  Notation eworld := (heap * list (option (Z * ptr)))%type.

  Definition eobj (w : eworld) (i : nat) : result (Z * ptr) :=
    match nth_error (snd w) i with Some (Some o) => Ok o | _ => Err NameError end.

  Definition enew (w : eworld) (depth : Z) : result eworld :=
    let '(h, p) := halloc (fst w) (blank fresh N) in Ok (h, snd w ++ [Some (depth, p)]).
  Definition ecopy (w : eworld) (i : nat) : result eworld :=
    do (depth, p) <- eobj w i;
    do (h, q) <- hcopy (fst w) p;
    Ok (h, snd w ++ [Some (depth, q)]).
  Definition edel (w : eworld) (i : nat) : result eworld :=
    do (_, p) <- eobj w i;
    do h <- hdel (fst w) p;
    Ok (h, list_set (snd w) i None).
  Definition eupd (w : eworld) (i : nat) (a : Z) (hist : list Z) (x : R) : result (eworld * R) :=
    do (depth, p) <- eobj w i;
    do ctx <- ctxf depth a hist;
    do (h, r) <- hupd fresh N keyf (step1 a hist x) leaf node ctx (fst w) p;
    Ok ((h, snd w), r).
  Definition eprd (w : eworld) (i : nat) (a : Z) (hist : list Z) : result (eworld * R) :=
    do (depth, p) <- eobj w i;
    do ctx <- ctxf depth a hist;
    do (h, r) <- hprd fresh N keyf (pred a hist) pleaf pnode ctx (fst w) p;
    Ok ((h, snd w), r).

  (** ** the same with separate trees *)
  Notation fobj := (Z * (list nat -> D))%type.
  Definition fnew (depth : Z) : fobj := (depth, fun _ => fresh).
  Definition fup (o : fobj) (a : Z) (hist : list Z) (x : R) : result (fobj * R) :=
    let '(depth, f) := o in
    do ctx <- ctxf depth a hist;
    do (f', r) <- fupd N keyf (step1 a hist x) leaf node ctx f;
    Ok ((depth, f'), r).
  Definition fpr (o : fobj) (a : Z) (hist : list Z) : result (fobj * R) :=
    let '(depth, f) := o in
    do ctx <- ctxf depth a hist;
    do r <- fprd N keyf (pred a hist) pleaf pnode ctx f;
    Ok (o, r).

  Definition absw (h : heap) (objs : list (option (Z * ptr))) : list (option fobj) :=
    map (option_map (fun '(d, p) => (d, look h p))) objs.

  Record winv (h : heap) (objs : list (option (Z * ptr))) (e : ptr -> Z) (rk : ptr -> nat) : Prop := {
    wi_wf : wf0 h e rk;
    wi_pos : pos h;
    wi_nonneg : forall x, (0 <= e x)%Z;
    wi_root : forall i d p, nth_error objs i = Some (Some (d, p)) ->
      (1 <= e p)%Z /\ exists c, at_ h p = Some c /\ c_rc c = 1;
    wi_distinct : forall i j d d' p, nth_error objs i = Some (Some (d, p)) ->
      nth_error objs j = Some (Some (d', p)) -> i = j;
    wi_all : freeing = true -> forall x, (1 <= e x)%Z -> exists i d, nth_error objs i = Some (Some (d, x)) }.

  Lemma absw_nth h objs i : nth_error (absw h objs) i =
    option_map (option_map (fun '(d, p) => (d, look h p))) (nth_error objs i).
  Proof. apply nth_error_map. Qed.

  Lemma absw_get h objs i : dget (absw h objs) i =
    match eobj (h, objs) i with Ok (d, p) => Ok (d, look h p) | Err x => Err x end.
  Proof.
    unfold dget, eobj. rewrite absw_nth. cbn [snd]. destruct (nth_error objs i) as [[[d p]|]|]; reflexivity.
  Qed.

  Lemma eobj_inv h objs i d p : eobj (h, objs) i = Ok (d, p) -> nth_error objs i = Some (Some (d, p)).
  Proof. unfold eobj. cbn [snd]. destruct (nth_error objs i) as [[o|]|]; congruence. Qed.

  Lemma absw_ext h h' objs : (forall i d p, nth_error objs i = Some (Some (d, p)) -> look h' p = look h p) ->
    absw h' objs = absw h objs.
  Proof.
    intros H. unfold absw. apply map_ext_in. intros [[d p]|] Hi; [|reflexivity]. cbn.
    apply In_nth_error in Hi as [i Hi]. rewrite (H i d p Hi). reflexivity.
  Qed.

  Lemma map_list_set {A B} (f : A -> B) l i x : map f (list_set l i x) = list_set (map f l) i (f x).
  Proof. revert i. induction l as [|y l IH]; intros [|i]; cbn; try reflexivity. f_equal. apply IH. Qed.

  Lemma list_set_nth {A} (l : list A) i x : nth_error l i = Some x -> list_set l i x = l.
  Proof. revert i. induction l as [|y l IH]; intros [|i] H; cbn in *; try congruence. f_equal. apply IH. exact H. Qed.

  Lemma list_set_ext {A} (l l' : list A) i x : length l = length l' ->
    (forall j, j <> i -> nth_error l j = nth_error l' j) -> list_set l i x = list_set l' i x.
  Proof.
    revert l' i. induction l as [|y l IH]; intros [|y' l'] i Hl H; try discriminate; [reflexivity|].
    destruct i as [|i]; cbn [list_set].
    - f_equal. assert (E: forall j, nth_error l j = nth_error l' j) by (intros j; exact (H (S j) ltac:(discriminate))).
      clear -E Hl. injection Hl as Hl. revert l' Hl E. induction l as [|z l IH]; intros [|z' l'] Hl E; try discriminate; [reflexivity|].
      f_equal; [specialize (E 0); cbn in E; congruence|]. apply IH; [injection Hl; auto|]. intros j. exact (E (S j)).
    - pose proof (H 0 ltac:(discriminate)) as E. cbn in E. injection E as ->. f_equal. apply IH; [injection Hl; auto|].
      intros j Hj. apply (H (S j)). congruence.
  Qed.

  (** object [i] changed, the others look the same *)
  Lemma absw_change h h' objs i d p f : nth_error objs i = Some (Some (d, p)) -> look h' p = f ->
    (forall j d' q, j <> i -> nth_error objs j = Some (Some (d', q)) -> look h' q = look h q) ->
    absw h' objs = list_set (absw h objs) i (Some (d, f)).
  Proof.
    intros Hi Hf Ho. unfold absw.
    rewrite <- (list_set_nth (map _ objs) i (Some (d, f))) at 1.
    - apply list_set_ext; [rewrite !map_length; reflexivity|]. intros j Hj. rewrite !nth_error_map.
      destruct (nth_error objs j) as [[[d' q]|]|] eqn:E; cbn; try reflexivity. rewrite (Ho j d' q Hj E). reflexivity.
    - rewrite nth_error_map, Hi. cbn. rewrite Hf. reflexivity.
  Qed.

  Definition eng := orun enew ecopy edel eupd eprd.
  Definition sep := orun (deep_new fnew) (deep_copy (O := fobj)) (deep_del (O := fobj)) (deep_update fup) (deep_predict fpr).

  (** what is expected of the two runs *)
  Definition agree (x : result (list (option fobj) * list R)) (y : result (eworld * list R)) : Prop :=
    match x with
    | Err z => y = Err z
    | Ok (w, rs) => exists h objs e rk, y = Ok ((h, objs), rs) /\ winv h objs e rk /\ w = absw h objs
    end.

  Lemma winv_new h objs e rk d : winv h objs e rk ->
    exists e' rk', winv (h ++ [Some (blank fresh N)]) (objs ++ [Some (d, length h)]) e' rk' /\
      absw (h ++ [Some (blank fresh N)]) (objs ++ [Some (d, length h)]) = absw h objs ++ [Some (fnew d)].
  Proof.
    intros [W P He Hr Hd Ha]. destruct (hnew_spec fresh N h e rk W P) as (rk' & W' & P' & Hn & Ln & Lo & Hb).
    assert (Hne: forall i d p, nth_error objs i = Some (Some (d, p)) -> p <> length h).
    { intros i d0 p Hi ->. destruct (Hr i d0 _ Hi) as (_ & c & Hc & _). congruence. }
    assert (nth: forall i d' p, nth_error (objs ++ [Some (d, length h)]) i = Some (Some (d', p)) ->
      nth_error objs i = Some (Some (d', p)) \/ (i = length objs /\ p = length h)).
    { intros i d' p Hi. destruct (Nat.lt_ge_cases i (length objs)) as [L|L].
      - rewrite nth_error_app1 in Hi by exact L. left. exact Hi.
      - rewrite nth_error_app2 in Hi by exact L. destruct (i - length objs) as [|n] eqn:E; cbn in Hi.
        + injection Hi as <- <-. right. split; [lia|reflexivity].
        + destruct n; discriminate. }
    eexists _, rk'. split.
    - split; [exact W'|exact P'| | | |].
      + intros x. specialize (He x). unfold delta. destruct (Nat.eq_dec (length h) x); lia.
      + intros i d' p Hi. destruct (nth i d' p Hi) as [Hi'|[_ ->]].
        * destruct (Hr i d' p Hi') as (He' & c & Hc & Hrc). split; [rewrite delta_other; [lia|]; apply not_eq_sym; eapply Hne; exact Hi'|].
          exists c. split; [rewrite at_app_old by (eapply Hne; exact Hi'); exact Hc|exact Hrc].
        * split; [rewrite delta_same; specialize (He (length h)); lia|]. eexists. split; [exact Hb|reflexivity].
      + intros i j d1 d2 p Hi Hj. destruct (nth i d1 p Hi) as [Hi'|[-> ->]], (nth j d2 _ Hj) as [Hj'|[-> Hp]].
        * eapply Hd; eauto.
        * exfalso. eapply Hne; [exact Hi'|exact Hp].
        * exfalso. eapply Hne; [exact Hj'|reflexivity].
        * reflexivity.
      + intros F x Hx. cbv beta in Hx. destruct (Nat.eq_dec (length h) x) as [<-|Hxn].
        * exists (length objs), d. rewrite nth_error_app2, Nat.sub_diag by lia. reflexivity.
        * rewrite delta_other in Hx by exact Hxn. destruct (Ha F x ltac:(lia)) as (i & d' & Hi). exists i, d'.
          rewrite nth_error_app1; [exact Hi|]. apply nth_error_Some. congruence.
    - unfold absw. rewrite map_app. cbn. rewrite Ln. f_equal. apply absw_ext. intros i d' p Hi. apply Lo.
      destruct (Hr i d' p Hi) as (_ & c & Hc & _). congruence.
  Qed.

  Lemma winv_copy h objs e rk i d p : winv h objs e rk -> nth_error objs i = Some (Some (d, p)) ->
    exists h' q e' rk', hcopy h p = Ok (h', q) /\ winv h' (objs ++ [Some (d, q)]) e' rk' /\
      absw h' (objs ++ [Some (d, q)]) = absw h objs ++ [Some (d, look h p)].
  Proof.
    intros [W P He Hr Hd Ha] Hi0. destruct (Hr i d p Hi0) as (Hep & c & Hc & Hrc).
    destruct (copy_wf N h e rk p c W P Hc) as (h1 & E1 & _ & _ & _ & _ & A).
    destruct (hcopy_spec fresh N h e rk p c W P Hc) as (h' & q & rk' & E & W' & P' & Hn & Lq & Lo & cq & Hq & Rq).
    rewrite E1 in E. injection E as -> <-.
    assert (Hne: forall i d p, nth_error objs i = Some (Some (d, p)) -> p <> length h).
    { intros i' d0 p' Hi ->. destruct (Hr i' d0 _ Hi) as (_ & c' & Hc' & _). congruence. }
    assert (nth: forall i d' p, nth_error (objs ++ [Some (d, length h)]) i = Some (Some (d', p)) ->
      nth_error objs i = Some (Some (d', p)) \/ (i = length objs /\ p = length h)).
    { intros i' d' p' Hi. destruct (Nat.lt_ge_cases i' (length objs)) as [L|L].
      - rewrite nth_error_app1 in Hi by exact L. left. exact Hi.
      - rewrite nth_error_app2 in Hi by exact L. destruct (i' - length objs) as [|n] eqn:En; cbn in Hi.
        + injection Hi as <- <-. right. split; [lia|reflexivity].
        + destruct n; discriminate. }
    eexists h', (length h), _, rk'. split; [exact E1|]. split.
    - split; [exact W'|exact P'| | | |].
      + intros x. specialize (He x). unfold delta. destruct (Nat.eq_dec (length h) x); lia.
      + intros i' d' p' Hi. destruct (nth i' d' p' Hi) as [Hi'|[_ ->]].
        * destruct (Hr i' d' p' Hi') as (He' & c' & Hc' & Hrc'). split; [rewrite delta_other; [lia|]; apply not_eq_sym; eapply Hne; exact Hi'|].
          rewrite A by (eapply Hne; exact Hi'). rewrite Hc'. cbn. eexists. split; [reflexivity|]. cbn.
          (* a root is not a child of anything *)
          destruct (cnt (c_kids c) p') eqn:K; [lia|]. exfalso.
          eapply (held_outside N h e rk p p' c'); eauto. exists c. split; [exact Hc|apply cnt_in; lia].
        * split; [rewrite delta_same; specialize (He (length h)); lia|]. exists cq. split; assumption.
      + intros i1 j1 d1 d2 p' Hi Hj. destruct (nth i1 d1 p' Hi) as [Hi'|[-> ->]], (nth j1 d2 _ Hj) as [Hj'|[-> Hp]].
        * eapply Hd; eauto.
        * exfalso. eapply Hne; [exact Hi'|exact Hp].
        * exfalso. eapply Hne; [exact Hj'|reflexivity].
        * reflexivity.
      + intros F x Hx. cbv beta in Hx. destruct (Nat.eq_dec (length h) x) as [<-|Hxn].
        * exists (length objs), d. rewrite nth_error_app2, Nat.sub_diag by lia. reflexivity.
        * rewrite delta_other in Hx by exact Hxn. destruct (Ha F x ltac:(lia)) as (i' & d' & Hi). exists i', d'.
          rewrite nth_error_app1; [exact Hi|]. apply nth_error_Some. congruence.
    - unfold absw. rewrite map_app. cbn. rewrite Lq. f_equal. apply absw_ext. intros i' d' p' Hi. apply Lo.
      destruct (Hr i' d' p' Hi) as (_ & c' & Hc' & _). congruence.
  Qed.

  Lemma winv_del h objs e rk i d p : winv h objs e rk -> nth_error objs i = Some (Some (d, p)) ->
    exists h' e' rk', hdel h p = Ok h' /\ winv h' (list_set objs i None) e' rk' /\
      absw h' (list_set objs i None) = list_set (absw h objs) i None.
  Proof.
    intros [W P He Hr Hd Ha] Hi0. destruct (Hr i d p Hi0) as (Hep & c & Hc & Hrc).
    destruct (hdel_ok h e rk p c W P He Hc Hrc Hep) as (h' & rk' & E & W' & P' & F).
    pose proof (proj1 (nth_error_Some objs i) ltac:(congruence)) as Hil.
    assert (Ep1: e p = 1%Z).
    { pose proof (w_bal _ _ _ _ W p c Hc). lia. }
    assert (nth: forall j d' q, nth_error (list_set objs i None) j = Some (Some (d', q)) ->
      j <> i /\ nth_error objs j = Some (Some (d', q)) /\ q <> p).
    { intros j d' q Hj. destruct (Nat.eq_dec j i) as [->|Hne].
      - rewrite nth_error_list_set_same in Hj by exact Hil. discriminate.
      - rewrite nth_error_list_set_other in Hj by congruence. split; [exact Hne|]. split; [exact Hj|].
        intros ->. apply Hne. eapply Hd; eauto. }
    eexists h', _, rk'. split; [exact E|]. split.
    - split; [exact W'|exact P'| | | |].
      + intros x. specialize (He x). destruct freeing; [|lia]. unfold delta. destruct (Nat.eq_dec p x); subst; lia.
      + intros j d' q Hj. destruct (nth j d' q Hj) as (_ & Hj' & Hq). destruct (Hr j d' q Hj') as (Heq & cq & Hcq & Hrq).
        split; [destruct freeing; [rewrite delta_other by congruence|]; lia|]. apply (F q cq Hq Heq Hcq Hrq).
      + intros j j' d1 d2 q Hj Hj'. eapply Hd; eapply nth; eauto.
      + intros G x Hx. cbv beta in Hx. rewrite G in Hx. destruct (Nat.eq_dec p x) as [<-|Hxp]; [rewrite delta_same in Hx; lia|].
        rewrite delta_other in Hx by exact Hxp. destruct (Ha G x ltac:(lia)) as (j & d' & Hj). exists j, d'.
        rewrite nth_error_list_set_other; [exact Hj|]. intros ->. congruence.
    - unfold absw. rewrite map_list_set. cbn. apply list_set_ext; [rewrite !map_length; reflexivity|].
      intros j Hj. rewrite !nth_error_map. destruct (nth_error objs j) as [[[d' q]|]|] eqn:Ej; cbn; try reflexivity.
      assert (Hq: q <> p) by (intros ->; apply Hj; eapply Hd; eauto).
      destruct (Hr j d' q Ej) as (Heq & cq & Hcq & Hrq). rewrite (proj1 (F q cq Hq Heq Hcq Hrq)). reflexivity.
  Qed.

  Lemma winv_upd h objs e rk i d p a hist x ctx : winv h objs e rk ->
    nth_error objs i = Some (Some (d, p)) ->
    match fupd N keyf (step1 a hist x) leaf node ctx (look h p) with
    | Err z => hupd fresh N keyf (step1 a hist x) leaf node ctx h p = Err z
    | Ok (f', r) => exists h' rk', hupd fresh N keyf (step1 a hist x) leaf node ctx h p = Ok (h', r) /\
        winv h' objs e rk' /\ absw h' objs = list_set (absw h objs) i (Some (d, f'))
    end.
  Proof.
    intros [W P He Hr Hd Ha] Hi. destruct (Hr i d p Hi) as (Hep & c & Hc & Hrc).
    pose proof (hupd_spec fresh N keyf keyf_lt (step1 a hist x) leaf node ctx h e rk p c W P He Hc Hrc) as U.
    destruct (fupd N keyf (step1 a hist x) leaf node ctx (look h p)) as [[f' r]|z]; [|exact U].
    destruct U as (h' & rk' & c' & E & W' & P' & L' & Hc' & Hrc' & Fo & Fn & Fl).
    exists h', rk'. split; [exact E|]. split.
    - split; [exact W'|exact P'|exact He| |exact Hd|exact Ha].
      intros j d' q Hj. destruct (Hr j d' q Hj) as (Heq & cq & Hcq & Hrq). split; [exact Heq|].
      destruct (Nat.eq_dec q p) as [->|Hq]; [exists c'; auto|]. exists cq. split; [|exact Hrq]. apply Fn; [exact Hcq|].
      intros R. inversion R as [Heq'|y z R1 R2 Heq']; [congruence|subst].
      eapply (held_outside N h e rk y q cq); eauto.
    - apply absw_change with p; [exact Hi|exact L'|]. intros j d' q Hj Hjn.
      assert (Hq: q <> p) by (intros ->; apply Hj; eapply Hd; eauto).
      destruct (Hr j d' q Hjn) as (Heq & cq & Hcq & Hrq).
      apply look_frame.
      + intros y cy Hy Hcy. destruct (Fo y cy Hcy) as [rc' E'].
        * intros Ho. revert Hy. eapply (not_owned_root N h e rk p q c); eauto.
        * rewrite E'. eexists. split; [reflexivity|]. split; reflexivity.
      + intros y Hy. eapply (reach_live N h e rk q); eauto. congruence.
  Qed.

  Lemma winv_prd h objs e rk i d p a hist ctx : winv h objs e rk ->
    nth_error objs i = Some (Some (d, p)) ->
    match fprd N keyf (pred a hist) pleaf pnode ctx (look h p) with
    | Err z => hprd fresh N keyf (pred a hist) pleaf pnode ctx h p = Err z
    | Ok r => exists h' rk', hprd fresh N keyf (pred a hist) pleaf pnode ctx h p = Ok (h', r) /\
        winv h' objs e rk' /\ absw h' objs = absw h objs
    end.
  Proof.
    intros [W P He Hr Hd Ha] Hi. destruct (Hr i d p Hi) as (Hep & c & Hc & Hrc).
    pose proof (hprd_spec fresh N keyf keyf_lt (pred a hist) pleaf pnode ctx h e rk p W P ltac:(congruence)) as U.
    destruct (fprd N keyf (pred a hist) pleaf pnode ctx (look h p)) as [r|z]; [|exact U].
    destruct U as (h' & rk' & E & W' & P' & L' & A').
    exists h', rk'. split; [exact E|]. split.
    - split; [exact W'|exact P'|exact He| |exact Hd|exact Ha].
      intros j d' q Hj. destruct (Hr j d' q Hj) as (Heq & cq & Hcq & Hrq). split; [exact Heq|].
      destruct (A' q cq Hcq) as [kids Hk]. eexists. split; [exact Hk|exact Hrq].
    - apply absw_ext. intros j d' q Hj. apply L'. destruct (Hr j d' q Hj) as (_ & cq & Hcq & _). congruence.
  Qed.

  Theorem world_agree ops : forall h objs e rk, winv h objs e rk ->
    agree (sep (absw h objs) ops) (eng (h, objs) ops).
  Proof.
    induction ops as [|o ops IH]; intros h objs e rk I.
    - cbn. exists h, objs, e, rk. auto.
    - destruct o as [d|i|i|i a hist x|i a hist]; cbn [sep eng orun]; fold eng; fold sep.
      + unfold deep_new, enew. cbn [bind halloc fst snd].
        destruct (winv_new h objs e rk d I) as (e' & rk' & I' & A'). rewrite <- A'. eapply IH. exact I'.
      + unfold deep_copy, ecopy. rewrite absw_get. destruct (eobj (h, objs) i) as [[d p]|z] eqn:E; cbn [bind fst snd]; [|reflexivity].
        apply eobj_inv in E. destruct (winv_copy h objs e rk i d p I E) as (h' & q & e' & rk' & Ec & I' & A').
        rewrite Ec. cbn [bind]. specialize (IH h' _ _ _ I'). rewrite A' in IH. exact IH.
      + unfold deep_del, edel. rewrite absw_get. destruct (eobj (h, objs) i) as [[d p]|z] eqn:E; cbn [bind fst snd]; [|reflexivity].
        apply eobj_inv in E. destruct (winv_del h objs e rk i d p I E) as (h' & e' & rk' & Ec & I' & A').
        rewrite Ec. cbn [bind]. specialize (IH h' _ _ _ I'). rewrite A' in IH. exact IH.
      + unfold deep_update, eupd. rewrite absw_get. destruct (eobj (h, objs) i) as [[d p]|z] eqn:E; cbn [bind fst snd fup]; [|reflexivity].
        apply eobj_inv in E. destruct (ctxf d a hist) as [ctx|z]; cbn [bind]; [|reflexivity].
        pose proof (winv_upd h objs e rk i d p a hist x ctx I E) as U.
        destruct (fupd N keyf (step1 a hist x) leaf node ctx (look h p)) as [[f' r]|z]; cbn [bind]; [|rewrite U; reflexivity].
        destruct U as (h' & rk' & Eu & I' & A'). rewrite Eu. cbn [bind].
        specialize (IH h' objs e rk' I'). rewrite A' in IH. unfold agree in *.
        destruct (sep (list_set (absw h objs) i (Some (d, f'))) ops) as [[w rs]|z]; cbn [bind]; [|rewrite IH; reflexivity].
        destruct IH as (h2 & objs2 & e2 & rk2 & Er & I2 & Ew). rewrite Er. cbn [bind]. exists h2, objs2, e2, rk2. auto.
      + unfold deep_predict, eprd. rewrite absw_get. destruct (eobj (h, objs) i) as [[d p]|z] eqn:E; cbn [bind fst snd fpr]; [|reflexivity].
        apply eobj_inv in E. destruct (ctxf d a hist) as [ctx|z]; cbn [bind]; [|reflexivity].
        pose proof (winv_prd h objs e rk i d p a hist ctx I E) as U.
        destruct (fprd N keyf (pred a hist) pleaf pnode ctx (look h p)) as [r|z]; cbn [bind]; [|rewrite U; reflexivity].
        destruct U as (h' & rk' & Eu & I' & A'). rewrite Eu. cbn [bind].
        assert (Es: list_set (absw h objs) i (Some (d, look h p)) = absw h' objs).
        { rewrite A'. apply list_set_nth. rewrite absw_nth, E. reflexivity. }
        rewrite Es. specialize (IH h' objs e rk' I'). unfold agree in *.
        destruct (sep (absw h' objs) ops) as [[w rs]|z]; cbn [bind]; [|rewrite IH; reflexivity].
        destruct IH as (h2 & objs2 & e2 & rk2 & Er & I2 & Ew). rewrite Er. cbn [bind]. exists h2, objs2, e2, rk2. auto.
  Qed.

  Lemma winv_empty : winv [] [] (fun _ => 0%Z) (fun _ => 0).
  Proof.
    assert (A: forall x, at_ ([] : heap) x = None) by (intros x; apply at_beyond; cbn; lia).
    split.
    - split; intros x; rewrite A; try discriminate; try congruence.
    - intros x c. rewrite A. discriminate.
    - intros; lia.
    - intros [|i]; discriminate.
    - intros [|i]; discriminate.
    - intros _ x Hx. lia.
  Qed.

  Corollary world_returned ops :
    returned (eng ([], []) ops) = returned (sep [] ops) /\
    forall w rs, eng ([], []) ops = Ok (w, rs) -> exists e rk, winv (fst w) (snd w) e rk.
  Proof.
    pose proof (world_agree ops [] [] _ _ winv_empty) as A. change (absw [] []) with (@nil (option fobj)) in A.
    unfold agree in A. destruct (sep [] ops) as [[w rs]|z].
    - destruct A as (h & objs & e & rk & E & I & _). split; [exact (f_equal returned E)|].
      intros w' rs' H. pose proof (eq_trans (eq_sym E) H) as H'. injection H' as <- <-. exists e, rk. exact I.
    - split; [exact (f_equal returned A)|]. intros w' rs' H. pose proof (eq_trans (eq_sym A) H). discriminate.
  Qed.
End world.
