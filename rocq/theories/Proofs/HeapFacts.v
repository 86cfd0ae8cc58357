(** Reference counts, sharing and acyclicity of the node memory of Model/Heap.v. *)
From Coq Require Import Arith FunctionalExtensionality.
From Verif Require Import Model.Heap Proofs.PyFacts.
Local Open Scope nat_scope.

Definition odec : forall a b : option ptr, {a = b} + {a <> b}.
Proof. decide equality. apply Nat.eq_dec. Qed.

(** how often the address occurs among the slots *)
Definition cnt (kids : list (option ptr)) (x : ptr) : nat := count_occ odec kids (Some x).

Definition delta (p x : ptr) : Z := if Nat.eq_dec p x then 1%Z else 0%Z.

Lemma delta_same p : delta p p = 1%Z.
Proof. unfold delta. destruct (Nat.eq_dec p p); congruence. Qed.
Lemma delta_other p x : p <> x -> delta p x = 0%Z.
Proof. unfold delta. destruct (Nat.eq_dec p x); congruence. Qed.

Lemma cnt_in kids x : In (Some x) kids <-> 1 <= cnt kids x.
Proof. unfold cnt. rewrite (count_occ_In odec). lia. Qed.

Lemma cnt_cons o kids x : cnt (o :: kids) x = (if odec o (Some x) then 1 else 0) + cnt kids x.
Proof. unfold cnt. cbn. destruct (odec o (Some x)); reflexivity. Qed.

Lemma cnt_set kids k o o' x : nth_error kids k = Some o ->
  cnt (list_set kids k o') x + (if odec o (Some x) then 1 else 0) =
  cnt kids x + (if odec o' (Some x) then 1 else 0).
Proof.
  revert k. induction kids as [|y kids IH]; intros [|k] H; try discriminate; cbn [list_set]; rewrite !cnt_cons.
  - injection H as ->. lia.
  - specialize (IH k H). lia.
Qed.

Lemma cnt_two kids k k' x : k <> k' -> nth_error kids k = Some (Some x) ->
  nth_error kids k' = Some (Some x) -> 2 <= cnt kids x.
Proof.
  intros Hk H H'. pose proof (cnt_set kids k (Some x) None x H) as E.
  assert (1 <= cnt (list_set kids k None) x).
  { apply cnt_in. apply nth_error_In with k'. rewrite nth_error_list_set_other by congruence. exact H'. }
  destruct (odec (Some x) (Some x)); [|congruence]. destruct (odec None (Some x)); [discriminate|]. lia.
Qed.

Lemma cnt_repeat_none n x : cnt (repeat None n) x = 0.
Proof.
  unfold cnt. apply count_occ_not_In. intros H. apply repeat_spec in H. discriminate.
Qed.

Section heap.
  Context {D : Type} (fresh : D) (N : nat).
  Notation heap := (heap D).

  Definition at_ (h : heap) (p : ptr) : option (cell D) :=
    match nth_error h p with Some (Some c) => Some c | _ => None end.

  Lemma hget_at h p : hget h p = match at_ h p with Some c => Ok c | None => Err UseAfterFree end.
  Proof. unfold hget, at_. destruct (nth_error h p) as [[c|]|]; reflexivity. Qed.

  Lemma hget_ok h p c : at_ h p = Some c -> hget h p = Ok c.
  Proof. intros H. rewrite hget_at, H. reflexivity. Qed.

  Lemma at_lt h p c : at_ h p = Some c -> p < length h.
  Proof.
    unfold at_. intros H. apply nth_error_Some. destruct (nth_error h p); congruence.
  Qed.

  Lemma at_beyond h p : length h <= p -> at_ h p = None.
  Proof. intros H. unfold at_. apply nth_error_None in H. rewrite H. reflexivity. Qed.

  Lemma at_set_same h p oc : p < length h -> at_ (list_set h p oc) p = oc.
  Proof.
    intros H. unfold at_. rewrite nth_error_list_set_same by exact H. destruct oc; reflexivity.
  Qed.

  Lemma at_set_other h p x oc : x <> p -> at_ (list_set h p oc) x = at_ h x.
  Proof. intros H. unfold at_. rewrite nth_error_list_set_other by congruence. reflexivity. Qed.

  Lemma at_app_old h oc x : x <> length h -> at_ (h ++ [oc]) x = at_ h x.
  Proof.
    intros H. unfold at_. destruct (Nat.lt_ge_cases x (length h)) as [L|L].
    - rewrite nth_error_app1 by exact L. reflexivity.
    - rewrite (proj2 (nth_error_None h x)) by exact L.
      rewrite (proj2 (nth_error_None (h ++ [oc]) x)); [reflexivity|]. rewrite app_length. cbn. lia.
  Qed.

  Lemma at_app_new h oc : at_ (h ++ [oc]) (length h) = oc.
  Proof.
    unfold at_. rewrite nth_error_app2 by lia. rewrite Nat.sub_diag. destruct oc; reflexivity.
  Qed.

  Lemma hput_ok h p c c' : at_ h p = Some c -> hput h p c' = Ok (list_set h p (Some c')).
  Proof. intros H. unfold hput. rewrite (hget_ok _ _ _ H). reflexivity. Qed.

  (** the references a memory location contributes *)
  Definition wt (oc : option (cell D)) (x : ptr) : nat :=
    match oc with Some c => if c_rc c =? 0 then 0 else cnt (c_kids c) x | None => 0 end.

  Definition refs (h : heap) (x : ptr) : nat := list_sum (map (fun oc => wt oc x) h).

  Lemma list_sum_cons n l : list_sum (n :: l) = n + list_sum l.
  Proof. reflexivity. Qed.

  Lemma refs_app h oc x : refs (h ++ [oc]) x = refs h x + wt oc x.
  Proof. unfold refs. rewrite map_app, list_sum_app. cbn. lia. Qed.

  Lemma refs_set h p oc x : p < length h ->
    refs (list_set h p oc) x + wt (at_ h p) x = refs h x + wt oc x.
  Proof.
    unfold refs. revert p. induction h as [|o h IH]; intros [|p] H; cbn [length] in H; try lia;
      cbn [list_set map]; rewrite ?list_sum_cons.
    - unfold at_. cbn [nth_error]. destruct o; cbn [wt]; lia.
    - specialize (IH p ltac:(lia)). unfold at_ in *. cbn [nth_error]. lia.
  Qed.

  Lemma refs_ge h p c x : at_ h p = Some c -> c_rc c <> 0 -> cnt (c_kids c) x <= refs h x.
  Proof.
    intros H Hc. pose proof (refs_set h p None x (at_lt _ _ _ H)) as E. rewrite H in E. cbn [wt] in E.
    rewrite (proj2 (Nat.eqb_neq _ _) Hc) in E. lia.
  Qed.

  Lemma refs_ge2 h p c p' c' x : p <> p' -> at_ h p = Some c -> c_rc c <> 0 ->
    at_ h p' = Some c' -> c_rc c' <> 0 -> cnt (c_kids c) x + cnt (c_kids c') x <= refs h x.
  Proof.
    intros Hp H Hc H' Hc'. pose proof (refs_set h p None x (at_lt _ _ _ H)) as E.
    rewrite H in E. cbn [wt] in E. rewrite (proj2 (Nat.eqb_neq _ _) Hc) in E.
    pose proof (refs_ge (list_set h p None) p' c' x) as G. rewrite at_set_other in G by congruence.
    specialize (G H' Hc'). lia.
  Qed.

  (** a reference comes from some node *)
  Lemma refs_from h x : 1 <= refs h x ->
    exists p c, at_ h p = Some c /\ c_rc c <> 0 /\ In (Some x) (c_kids c).
  Proof.
    unfold refs, at_. induction h as [|o h IH]; [cbn; lia|]. cbn [map]. rewrite list_sum_cons. intros H.
    destruct (wt o x) as [|n] eqn:E.
    - destruct (IH H) as (p & c & Hp & R). exists (S p), c. split; [exact Hp|exact R].
    - destruct o as [c|]; cbn in E; [|discriminate]. destruct (c_rc c =? 0) eqn:Z; [discriminate|].
      exists 0, c. split; [reflexivity|]. split; [apply Nat.eqb_neq; exact Z|]. apply cnt_in. lia.
  Qed.

  (** every node's count is the number of slots holding it plus the references from outside,
      given by [e]; slots hold live nodes; the tree goes down. *)
  Record wf0 (h : heap) (e : ptr -> Z) (rk : ptr -> nat) : Prop := {
    w_bal : forall x c, at_ h x = Some c -> (Z.of_nat (c_rc c) = Z.of_nat (refs h x) + e x)%Z;
    w_closed : forall x c y, at_ h x = Some c -> c_rc c <> 0 -> In (Some y) (c_kids c) ->
      at_ h y <> None;
    w_rank : forall x c y, at_ h x = Some c -> c_rc c <> 0 -> In (Some y) (c_kids c) -> rk y < rk x;
    w_bound : forall x, at_ h x <> None -> rk x < length h;
    w_shape : forall x c, at_ h x = Some c -> length (c_kids c) = N;
    w_ext : forall x, at_ h x = None -> e x = 0%Z }.

  Definition pos (h : heap) : Prop := forall x c, at_ h x = Some c -> c_rc c <> 0.

  Lemma wf0_ext_eq h e e' rk : (forall x, e x = e' x) -> wf0 h e rk -> wf0 h e' rk.
  Proof.
    intros E [H1 H2 H3 H4 H5 H6]. split; auto.
    - intros x c Hx. rewrite <- E. apply H1. exact Hx.
    - intros x Hx. rewrite <- E. apply H6. exact Hx.
  Qed.

  Lemma no_refs_beyond h e rk x : wf0 h e rk -> at_ h x = None -> refs h x = 0.
  Proof.
    intros W H. destruct (refs h x) as [|n] eqn:E; [reflexivity|].
    destruct (refs_from h x) as (p & c & Hp & Hc & Hi); [lia|].
    exfalso. exact (w_closed _ _ _ W p c x Hp Hc Hi H).
  Qed.

  (** Replacing a node by one with the same slots, changing the count from nonzero to nonzero. *)
  Lemma put_refs h p c c' x : at_ h p = Some c -> c_kids c' = c_kids c -> c_rc c <> 0 -> c_rc c' <> 0 ->
    refs (list_set h p (Some c')) x = refs h x.
  Proof.
    intros H Hk Hc Hc'. pose proof (refs_set h p (Some c') x (at_lt _ _ _ H)) as E.
    rewrite H in E. cbn [wt] in E. rewrite Hk, (proj2 (Nat.eqb_neq _ _) Hc), (proj2 (Nat.eqb_neq _ _) Hc') in E. lia.
  Qed.

  Lemma wf0_put h e rk p c c' : wf0 h e rk -> at_ h p = Some c -> c_kids c' = c_kids c ->
    c_rc c <> 0 -> c_rc c' <> 0 ->
    wf0 (list_set h p (Some c'))
        (fun x => e x + (if Nat.eq_dec p x then Z.of_nat (c_rc c') - Z.of_nat (c_rc c) else 0))%Z rk.
  Proof.
    intros W H Hk Hc Hc'. pose proof (at_lt _ _ _ H) as Hl.
    assert (A: forall x, x <> p -> at_ (list_set h p (Some c')) x = at_ h x) by (intros; apply at_set_other; auto).
    assert (B: at_ (list_set h p (Some c')) p = Some c') by (apply at_set_same; exact Hl).
    split.
    - intros x cx Hx. rewrite (put_refs h p c c' x H Hk Hc Hc'). destruct (Nat.eq_dec p x) as [<-|Hne].
      + rewrite B in Hx. injection Hx as <-. pose proof (w_bal _ _ _ W p c H). lia.
      + rewrite A in Hx by congruence. pose proof (w_bal _ _ _ W x cx Hx). lia.
    - intros x cx y Hx Hr Hi. assert (at_ h y <> None).
      { destruct (Nat.eq_dec x p) as [->|Hne].
        - rewrite B in Hx. injection Hx as <-. rewrite Hk in Hi. exact (w_closed _ _ _ W p c y H Hc Hi).
        - rewrite A in Hx by exact Hne. exact (w_closed _ _ _ W x cx y Hx Hr Hi). }
      destruct (Nat.eq_dec y p) as [->|Hy]; [rewrite B; discriminate|rewrite A by exact Hy; exact H0].
    - intros x cx y Hx Hr Hi. destruct (Nat.eq_dec x p) as [->|Hne].
      + rewrite B in Hx. injection Hx as <-. rewrite Hk in Hi. exact (w_rank _ _ _ W p c y H Hc Hi).
      + rewrite A in Hx by exact Hne. exact (w_rank _ _ _ W x cx y Hx Hr Hi).
    - intros x Hx. rewrite list_set_length. apply (w_bound _ _ _ W). destruct (Nat.eq_dec x p) as [->|Hne].
      + congruence.
      + rewrite A in Hx by exact Hne. exact Hx.
    - intros x cx Hx. destruct (Nat.eq_dec x p) as [->|Hne].
      + rewrite B in Hx. injection Hx as <-. rewrite Hk. exact (w_shape _ _ _ W p c H).
      + rewrite A in Hx by exact Hne. exact (w_shape _ _ _ W x cx Hx).
    - intros x Hx. destruct (Nat.eq_dec p x) as [<-|Hne]; [rewrite B in Hx; discriminate|].
      rewrite A in Hx by congruence. rewrite (w_ext _ _ _ W x Hx). reflexivity.
  Qed.

  Lemma pos_put h p c' : pos h -> p < length h -> c_rc c' <> 0 -> pos (list_set h p (Some c')).
  Proof.
    intros P Hl Hc x cx Hx. destruct (Nat.eq_dec x p) as [->|Hne].
    - rewrite at_set_same in Hx by exact Hl. injection Hx as <-. exact Hc.
    - rewrite at_set_other in Hx by exact Hne. exact (P x cx Hx).
  Qed.

  (** ** assigning data *)
  Lemma put_data_ok h p c d : at_ h p = Some c ->
    put_data h p d = Ok (list_set h p (Some (Cell d (c_kids c) (c_rc c)))).
  Proof. intros H. unfold put_data. rewrite (hget_ok _ _ _ H). cbn [bind]. apply hput_ok with c. exact H. Qed.

  Lemma put_data_wf h e rk p c d : wf0 h e rk -> pos h -> at_ h p = Some c ->
    wf0 (list_set h p (Some (Cell d (c_kids c) (c_rc c)))) e rk /\
    pos (list_set h p (Some (Cell d (c_kids c) (c_rc c)))).
  Proof.
    intros W P H. split.
    - eapply wf0_ext_eq; [|eapply (wf0_put h e rk p c (Cell d (c_kids c) (c_rc c)) W H); cbn; [reflexivity|exact (P p c H)|exact (P p c H)]].
      intros x. cbn [c_rc c_kids]. destruct (Nat.eq_dec p x); lia.
    - apply pos_put; [exact P|eapply at_lt; exact H|cbn; exact (P p c H)].
  Qed.

  (** ** counting up and down *)
  Lemma decr_wf h e rk p c : wf0 h e rk -> pos h -> at_ h p = Some c -> 2 <= c_rc c ->
    decr h p = Ok (list_set h p (Some (Cell (c_data c) (c_kids c) (c_rc c - 1)))) /\
    wf0 (list_set h p (Some (Cell (c_data c) (c_kids c) (c_rc c - 1)))) (fun x => e x - delta p x)%Z rk /\
    pos (list_set h p (Some (Cell (c_data c) (c_kids c) (c_rc c - 1)))).
  Proof.
    intros W P H H2. split; [|split].
    - unfold decr. rewrite (hget_ok _ _ _ H). cbn [bind]. destruct (c_rc c) as [|n] eqn:E; [lia|].
      replace (S n - 1) with n by lia. apply hput_ok with c. exact H.
    - eapply wf0_ext_eq; [|eapply (wf0_put h e rk p c (Cell (c_data c) (c_kids c) (c_rc c - 1)) W H); cbn; [reflexivity|lia|lia]].
      intros x. cbn [c_rc c_kids]. unfold delta. destruct (Nat.eq_dec p x); lia.
    - apply pos_put; [exact P|eapply at_lt; exact H|cbn; lia].
  Qed.

  Lemma incr_wf h e rk p c : wf0 h e rk -> pos h -> at_ h p = Some c ->
    incr h p = Ok (list_set h p (Some (Cell (c_data c) (c_kids c) (S (c_rc c))))) /\
    wf0 (list_set h p (Some (Cell (c_data c) (c_kids c) (S (c_rc c))))) (fun x => e x + delta p x)%Z rk /\
    pos (list_set h p (Some (Cell (c_data c) (c_kids c) (S (c_rc c))))).
  Proof.
    intros W P H. split; [|split].
    - unfold incr. rewrite (hget_ok _ _ _ H). cbn [bind]. apply hput_ok with c. exact H.
    - eapply wf0_ext_eq; [|eapply (wf0_put h e rk p c (Cell (c_data c) (c_kids c) (S (c_rc c))) W H); cbn; [reflexivity|exact (P p c H)|lia]].
      intros x. cbn [c_rc c_kids]. unfold delta. destruct (Nat.eq_dec p x); lia.
    - apply pos_put; [exact P|eapply at_lt; exact H|cbn; lia].
  Qed.

  Definition bump (n : nat) (c : cell D) : cell D := Cell (c_data c) (c_kids c) (c_rc c + n).

  Lemma incr_kids_wf kids : forall h e rk, wf0 h e rk -> pos h ->
    (forall y, In (Some y) kids -> at_ h y <> None) ->
    exists h', incr_kids h kids = Ok h' /\
      wf0 h' (fun x => e x + Z.of_nat (cnt kids x))%Z rk /\ pos h' /\ length h' = length h /\
      (forall x, at_ h' x = option_map (bump (cnt kids x)) (at_ h x)).
  Proof.
    induction kids as [|o kids IH]; intros h e rk W P Hl.
    - exists h. split; [reflexivity|]. split; [eapply wf0_ext_eq; [|exact W]; intros x; cbn; lia|].
      split; [exact P|]. split; [reflexivity|]. intros x. destruct (at_ h x) as [[d k r]|]; cbn; [|reflexivity].
      unfold bump. cbn. rewrite Nat.add_0_r. reflexivity.
    - destruct o as [q|].
      + destruct (at_ h q) as [c|] eqn:Hq; [|exfalso; exact (Hl q (or_introl eq_refl) Hq)].
        destruct (incr_wf h e rk q c W P Hq) as (E & W1 & P1).
        set (h1 := list_set h q (Some (Cell (c_data c) (c_kids c) (S (c_rc c))))) in *.
        assert (A: forall x, at_ h1 x = option_map (bump (if odec (Some q) (Some x) then 1 else 0)) (at_ h x)).
        { intros x. unfold h1. destruct (Nat.eq_dec x q) as [->|Hne].
          - rewrite at_set_same by (eapply at_lt; exact Hq). rewrite Hq. destruct (odec (Some q) (Some q)); [|congruence]. cbn [option_map].
            unfold bump. f_equal. f_equal. lia.
          - rewrite at_set_other by exact Hne. destruct (odec (Some q) (Some x)); [congruence|].
            destruct (at_ h x) as [[d k r]|]; cbn; [|reflexivity]. unfold bump. cbn. rewrite Nat.add_0_r. reflexivity. }
        destruct (IH h1 _ rk W1 P1) as (h' & E' & W' & P' & L' & A').
        { intros y Hy. rewrite A. pose proof (Hl y (or_intror Hy)). destruct (at_ h y); [discriminate|congruence]. }
        exists h'. cbn [incr_kids]. rewrite E. cbn [bind]. split; [exact E'|].
        split; [|split; [exact P'|split]].
        * eapply wf0_ext_eq; [|exact W']. intros x. cbv beta. rewrite cnt_cons. unfold delta.
          destruct (odec (Some q) (Some x)), (Nat.eq_dec q x); try congruence; lia.
        * rewrite L'. unfold h1. apply list_set_length.
        * intros x. rewrite A', A, cnt_cons. destruct (at_ h x) as [[d k r]|]; cbn; [|reflexivity].
          unfold bump. cbn. f_equal. f_equal. lia.
      + destruct (IH h e rk W P) as (h' & E' & W' & P' & L' & A').
        { intros y Hy. apply Hl. right. exact Hy. }
        exists h'. cbn [incr_kids]. split; [exact E'|].
        split; [|split; [exact P'|split; [exact L'|]]].
        * eapply wf0_ext_eq; [|exact W']. intros x. cbv beta. rewrite cnt_cons. destruct (odec None (Some x)); [discriminate|]. lia.
        * intros x. rewrite A', cnt_cons. destruct (odec None (Some x)); [discriminate|]. reflexivity.
  Qed.

  (** ** new nodes *)
  Lemma alloc_wf h e rk c r : wf0 h e rk -> pos h -> c_rc c <> 0 -> length (c_kids c) = N ->
    r <= length h -> (forall x, at_ h x <> None -> rk x < r + length h) ->
    (forall y, In (Some y) (c_kids c) -> at_ h y <> None /\ rk y < r) ->
    wf0 (h ++ [Some c])
        (fun x => e x - Z.of_nat (cnt (c_kids c) x) + (if Nat.eq_dec (length h) x then Z.of_nat (c_rc c) else 0))%Z
        (fun x => if Nat.eq_dec (length h) x then r else rk x) /\
    pos (h ++ [Some c]).
  Proof.
    intros W P Hc HN Hr _ Hk.
    assert (Hnone: at_ h (length h) = None) by (apply at_beyond; lia).
    assert (A: forall x, x <> length h -> at_ (h ++ [Some c]) x = at_ h x) by (intros; apply at_app_old; auto).
    assert (B: at_ (h ++ [Some c]) (length h) = Some c) by apply at_app_new.
    assert (K0: cnt (c_kids c) (length h) = 0).
    { destruct (cnt (c_kids c) (length h)) eqn:E; [reflexivity|]. exfalso.
      assert (I: In (Some (length h)) (c_kids c)) by (apply cnt_in; lia). exact (proj1 (Hk (length h) I) Hnone). }
    assert (live: forall y, at_ h y <> None -> at_ (h ++ [Some c]) y <> None /\ y <> length h).
    { intros y Hy. assert (y <> length h) by congruence. rewrite A by assumption. auto. }
    split.
    - split.
      + intros x cx Hx. rewrite refs_app. cbn [wt]. rewrite (proj2 (Nat.eqb_neq _ _) Hc).
        destruct (Nat.eq_dec (length h) x) as [<-|Hne].
        * rewrite B in Hx. injection Hx as <-. rewrite K0, (no_refs_beyond _ _ _ _ W Hnone), (w_ext _ _ _ W _ Hnone). lia.
        * rewrite A in Hx by congruence. pose proof (w_bal _ _ _ W x cx Hx). lia.
      + intros x cx y Hx Hrx Hi. destruct (Nat.eq_dec x (length h)) as [->|Hne].
        * rewrite B in Hx. injection Hx as <-. apply live. apply Hk. exact Hi.
        * rewrite A in Hx by exact Hne. apply live. exact (w_closed _ _ _ W x cx y Hx Hrx Hi).
      + intros x cx y Hx Hrx Hi. destruct (Nat.eq_dec (length h) x) as [<-|Hne].
        * rewrite B in Hx. injection Hx as <-. destruct (Hk y Hi) as [Hy Hlt].
          destruct (Nat.eq_dec (length h) y) as [Heq|]; [exfalso; apply (proj2 (live y Hy)); auto|exact Hlt].
        * rewrite A in Hx by congruence. pose proof (w_closed _ _ _ W x cx y Hx Hrx Hi) as Hy.
          destruct (Nat.eq_dec (length h) y) as [Heq|]; [exfalso; apply (proj2 (live y Hy)); auto|].
          exact (w_rank _ _ _ W x cx y Hx Hrx Hi).
      + intros x Hx. rewrite app_length. cbn. destruct (Nat.eq_dec (length h) x) as [<-|Hne]; [lia|].
        rewrite A in Hx by congruence. pose proof (w_bound _ _ _ W x Hx). lia.
      + intros x cx Hx. destruct (Nat.eq_dec x (length h)) as [->|Hne].
        * rewrite B in Hx. injection Hx as <-. exact HN.
        * rewrite A in Hx by exact Hne. exact (w_shape _ _ _ W x cx Hx).
      + intros x Hx. destruct (Nat.eq_dec (length h) x) as [<-|Hne]; [rewrite B in Hx; discriminate|].
        rewrite A in Hx by congruence. rewrite (w_ext _ _ _ W x Hx).
        destruct (cnt (c_kids c) x) eqn:E; [reflexivity|]. exfalso.
        assert (I: In (Some x) (c_kids c)) by (apply cnt_in; lia). exact (proj1 (Hk x I) Hx).
    - intros x cx Hx. destruct (Nat.eq_dec x (length h)) as [->|Hne].
      + rewrite B in Hx. injection Hx as <-. exact Hc.
      + rewrite A in Hx by exact Hne. exact (P x cx Hx).
  Qed.

  (** A fresh node without children: every rank goes up by one to make room below. *)
  Definition blank : cell D := Cell fresh (repeat None N) 1.

  Lemma new_wf h e rk : wf0 h e rk -> pos h ->
    wf0 (h ++ [Some blank]) (fun x => e x + delta (length h) x)%Z
        (fun x => if Nat.eq_dec (length h) x then 0 else S (rk x)) /\
    pos (h ++ [Some blank]).
  Proof.
    intros W P.
    destruct (alloc_wf h e rk blank 0 W P) as [W1 P1]; cbn [c_kids c_rc blank]; try lia.
    - apply repeat_length.
    - intros x Hx. exact (w_bound _ _ _ W x Hx).
    - intros y Hy. apply repeat_spec in Hy. discriminate.
    - split; [|exact P1].
      assert (Hnone: at_ h (length h) = None) by (apply at_beyond; lia).
      pose proof (w_bal _ _ _ W1) as HB.
      split.
      + intros x c Hx. rewrite (HB x c Hx). cbv beta. cbn [c_kids c_rc blank]. rewrite cnt_repeat_none. unfold delta.
        destruct (Nat.eq_dec (length h) x); lia.
      + exact (w_closed _ _ _ W1).
      + intros x c y Hx Hr Hi. pose proof (w_rank _ _ _ W1 x c y Hx Hr Hi) as L. cbn in L.
        destruct (Nat.eq_dec (length h) x) as [<-|]; destruct (Nat.eq_dec (length h) y); lia.
      + intros x Hx. rewrite app_length. cbn. destruct (Nat.eq_dec (length h) x) as [<-|Hne]; [lia|].
        rewrite at_app_old in Hx by congruence. pose proof (w_bound _ _ _ W x Hx). lia.
      + exact (w_shape _ _ _ W1).
      + intros x Hx. pose proof (w_ext _ _ _ W1 x Hx) as G. cbv beta in G. cbn [c_kids c_rc blank] in G. rewrite cnt_repeat_none in G. unfold delta.
        destruct (Nat.eq_dec (length h) x); lia.
  Qed.

  (** ** copying a node *)
  Definition hcopy (h : heap) (self : ptr) : result (heap * ptr) :=
    do c <- hget h self;
    let '(h, r) := halloc h (Cell (c_data c) (c_kids c) 1) in
    do h <- incr_kids h (c_kids c);
    Ok (h, r).

  Lemma copy_wf h e rk p c : wf0 h e rk -> pos h -> at_ h p = Some c ->
    exists h', hcopy h p = Ok (h', length h) /\
      wf0 h' (fun x => e x + delta (length h) x)%Z
          (fun x => if Nat.eq_dec (length h) x then rk p else rk x) /\
      pos h' /\ length h' = S (length h) /\
      at_ h' (length h) = Some (Cell (c_data c) (c_kids c) 1) /\
      (forall x, x <> length h -> at_ h' x = option_map (bump (cnt (c_kids c) x)) (at_ h x)).
  Proof.
    intros W P H. unfold hcopy. rewrite (hget_ok _ _ _ H). cbn [bind halloc].
    destruct (alloc_wf h e rk (Cell (c_data c) (c_kids c) 1) (rk p) W P) as [W1 P1]; cbn; try lia.
    - exact (w_shape _ _ _ W p c H).
    - apply Nat.lt_le_incl. apply (w_bound _ _ _ W). congruence.
    - intros x Hx. pose proof (w_bound _ _ _ W x Hx). lia.
    - intros y Hy. split; [exact (w_closed _ _ _ W p c y H (P p c H) Hy)|exact (w_rank _ _ _ W p c y H (P p c H) Hy)].
    - destruct (incr_kids_wf (c_kids c) _ _ _ W1 P1) as (h' & E & W' & P' & L & A).
      { intros y Hy. pose proof (w_closed _ _ _ W p c y H (P p c H) Hy) as Hy'.
        rewrite at_app_old; [exact Hy'|]. intros ->. apply Hy'. apply at_beyond. lia. }
      cbn [c_kids] in *. exists h'. rewrite E. cbn [bind]. split; [reflexivity|]. split; [|split; [exact P'|split; [|split]]].
      + eapply wf0_ext_eq; [|exact W']. intros x. cbn [c_rc c_kids]. unfold delta. destruct (Nat.eq_dec (length h) x); lia.
      + rewrite L, app_length. cbn. lia.
      + rewrite A, at_app_new. cbn. unfold bump. cbn.
        assert (K0: cnt (c_kids c) (length h) = 0).
        { destruct (cnt (c_kids c) (length h)) eqn:E0; [reflexivity|]. exfalso.
          apply (w_closed _ _ _ W p c (length h) H (P p c H)); [apply cnt_in; lia|]. apply at_beyond. lia. }
        rewrite K0. reflexivity.
      + intros x Hx. rewrite A, at_app_old by exact Hx. reflexivity.
  Qed.

  (** ** filling a slot *)
  Lemma put_kid_wf h e rk p c k o q : wf0 h e rk -> pos h -> at_ h p = Some c ->
    nth_error (c_kids c) k = Some o -> at_ h q <> None -> rk q < rk p ->
    put_kid h p k q = Ok (list_set h p (Some (Cell (c_data c) (list_set (c_kids c) k (Some q)) (c_rc c)))) /\
    wf0 (list_set h p (Some (Cell (c_data c) (list_set (c_kids c) k (Some q)) (c_rc c))))
        (fun x => e x - delta q x + match o with Some y => delta y x | None => 0 end)%Z rk /\
    pos (list_set h p (Some (Cell (c_data c) (list_set (c_kids c) k (Some q)) (c_rc c)))).
  Proof.
    intros W P H Hk Hq Hrk. pose proof (at_lt _ _ _ H) as Hl. pose proof (P p c H) as Hc.
    set (c' := Cell (c_data c) (list_set (c_kids c) k (Some q)) (c_rc c)).
    assert (A: forall x, x <> p -> at_ (list_set h p (Some c')) x = at_ h x) by (intros; apply at_set_other; auto).
    assert (B: at_ (list_set h p (Some c')) p = Some c') by (apply at_set_same; exact Hl).
    assert (Kin: forall y, In (Some y) (c_kids c') -> y = q \/ In (Some y) (c_kids c)).
    { intros y Hy. destruct (Nat.eq_dec y q) as [->|Hne]; [left; reflexivity|right]. apply cnt_in. apply cnt_in in Hy. unfold c' in Hy. cbn [c_kids] in Hy.
      pose proof (cnt_set (c_kids c) k o (Some q) y Hk) as E. destruct (odec (Some q) (Some y)); [congruence|]. destruct (odec o (Some y)); lia. }
    assert (live: forall y, at_ h y <> None -> at_ (list_set h p (Some c')) y <> None).
    { intros y Hy. destruct (Nat.eq_dec y p) as [->|Hne]; [rewrite B; discriminate|rewrite A by exact Hne; exact Hy]. }
    split; [|split].
    - unfold put_kid. rewrite (hget_ok _ _ _ H). cbn [bind]. apply hput_ok with c. exact H.
    - split.
      + intros x cx Hx. pose proof (refs_set h p (Some c') x Hl) as E. rewrite H in E. cbn [wt] in E.
        unfold c' in E at 2. cbn [c_rc c_kids] in E. rewrite (proj2 (Nat.eqb_neq _ _) Hc) in E.
        pose proof (cnt_set (c_kids c) k o (Some q) x Hk) as E2.
        assert (V: (Z.of_nat (c_rc cx) = Z.of_nat (refs h x) + e x)%Z).
        { destruct (Nat.eq_dec x p) as [->|Hne].
          - rewrite B in Hx. injection Hx as <-. cbn. exact (w_bal _ _ _ W p c H).
          - rewrite A in Hx by exact Hne. exact (w_bal _ _ _ W x cx Hx). }
        assert (Dq: delta q x = Z.of_nat (if odec (Some q) (Some x) then 1 else 0)).
        { unfold delta. destruct (Nat.eq_dec q x), (odec (Some q) (Some x)); try congruence; reflexivity. }
        assert (Do: (match o with Some y => delta y x | None => 0 end)%Z = Z.of_nat (if odec o (Some x) then 1 else 0)).
        { destruct o as [y|]; [|destruct (odec None (Some x)); [discriminate|reflexivity]]. unfold delta. destruct (Nat.eq_dec y x), (odec (Some y) (Some x)); try congruence; reflexivity. }
        rewrite Dq, Do. unfold c' in E at 2. cbn [c_kids] in E. lia.
      + intros x cx y Hx Hr Hi. apply live. destruct (Nat.eq_dec x p) as [->|Hne].
        * rewrite B in Hx. injection Hx as <-. destruct (Kin y Hi) as [->|Hi']; [exact Hq|].
          exact (w_closed _ _ _ W p c y H Hc Hi').
        * rewrite A in Hx by exact Hne. exact (w_closed _ _ _ W x cx y Hx Hr Hi).
      + intros x cx y Hx Hr Hi. destruct (Nat.eq_dec x p) as [->|Hne].
        * rewrite B in Hx. injection Hx as <-. destruct (Kin y Hi) as [->|Hi']; [exact Hrk|].
          exact (w_rank _ _ _ W p c y H Hc Hi').
        * rewrite A in Hx by exact Hne. exact (w_rank _ _ _ W x cx y Hx Hr Hi).
      + intros x Hx. rewrite list_set_length. apply (w_bound _ _ _ W). destruct (Nat.eq_dec x p) as [->|Hne]; [congruence|].
        rewrite A in Hx by exact Hne. exact Hx.
      + intros x cx Hx. destruct (Nat.eq_dec x p) as [->|Hne].
        * rewrite B in Hx. injection Hx as <-. cbn. rewrite list_set_length. exact (w_shape _ _ _ W p c H).
        * rewrite A in Hx by exact Hne. exact (w_shape _ _ _ W x cx Hx).
      + intros x Hx. assert (Hn: at_ h x = None).
        { destruct (at_ h x) eqn:E; [|reflexivity]. exfalso. apply (live x); [congruence|exact Hx]. }
        rewrite (w_ext _ _ _ W x Hn). rewrite delta_other by congruence.
        destruct o as [y|]; [|reflexivity]. rewrite delta_other; [reflexivity|]. intros ->.
        apply (w_closed _ _ _ W p c x H Hc); [|exact Hn]. apply nth_error_In with k. exact Hk.
    - apply pos_put; [exact P|exact Hl|exact Hc].
  Qed.
End heap.
