(** Simulations between programs over objects. *)
From Verif Require Import Spec.Objects Proofs.PyFacts.

Definition rrel {A B} (P : A -> B -> Prop) (x : result A) (y : result B) : Prop :=
  match x, y with
  | Ok a, Ok b => P a b
  | Err e, Err e' => e = e'
  | _, _ => False
  end.

Lemma rrel_bind {A B A' B'} (P : A -> B -> Prop) (Q : A' -> B' -> Prop) x y f g :
  rrel P x y -> (forall a b, P a b -> rrel Q (f a) (g b)) -> rrel Q (bind x f) (bind y g).
Proof. destruct x, y; cbn; intros H F; try contradiction; auto. Qed.

Section sim.
  Context {W1 W2 : Type} (Rw : W1 -> W2 -> Prop).
  Variables (new1 : W1 -> Z -> result W1) (copy1 del1 : W1 -> nat -> result W1)
    (upd1 : W1 -> nat -> Z -> list Z -> R -> result (W1 * R))
    (prd1 : W1 -> nat -> Z -> list Z -> result (W1 * R)).
  Variables (new2 : W2 -> Z -> result W2) (copy2 del2 : W2 -> nat -> result W2)
    (upd2 : W2 -> nat -> Z -> list Z -> R -> result (W2 * R))
    (prd2 : W2 -> nat -> Z -> list Z -> result (W2 * R)).
  (** restriction on the calls *)
  Variables (okn : Z -> Prop) (oku : Z -> list Z -> R -> Prop) (okp : Z -> list Z -> Prop).

  Definition okop (o : oop) : Prop :=
    match o with
    | ONew d => okn d
    | OUpdate _ a h w => oku a h w
    | OPredict _ a h => okp a h
    | _ => True
    end.

  Definition rsame (x : W1 * R) (y : W2 * R) : Prop := Rw (fst x) (fst y) /\ snd x = snd y.

  Hypothesis Hnew : forall w1 w2 d, Rw w1 w2 -> okn d -> rrel Rw (new1 w1 d) (new2 w2 d).
  Hypothesis Hcopy : forall w1 w2 i, Rw w1 w2 -> rrel Rw (copy1 w1 i) (copy2 w2 i).
  Hypothesis Hdel : forall w1 w2 i, Rw w1 w2 -> rrel Rw (del1 w1 i) (del2 w2 i).
  Hypothesis Hupd : forall w1 w2 i a h x, Rw w1 w2 -> oku a h x ->
    rrel rsame (upd1 w1 i a h x) (upd2 w2 i a h x).
  Hypothesis Hprd : forall w1 w2 i a h, Rw w1 w2 -> okp a h ->
    rrel rsame (prd1 w1 i a h) (prd2 w2 i a h).

  Lemma orun_sim ops : forall w1 w2, Rw w1 w2 -> Forall okop ops ->
    rrel (fun x y => Rw (fst x) (fst y) /\ snd x = snd y)
      (orun new1 copy1 del1 upd1 prd1 w1 ops) (orun new2 copy2 del2 upd2 prd2 w2 ops).
  Proof.
    induction ops as [|o ops IH]; intros w1 w2 Hw Ho; [cbn; auto|].
    inversion Ho as [|o' ops' Ho1 Ho2]; subst.
    destruct o as [d|i|i|i a h x|i a h]; cbn [orun].
    - eapply rrel_bind; [apply Hnew; [exact Hw|exact Ho1]|]. intros; apply IH; auto.
    - eapply rrel_bind; [apply Hcopy; exact Hw|]. intros; apply IH; auto.
    - eapply rrel_bind; [apply Hdel; exact Hw|]. intros; apply IH; auto.
    - eapply rrel_bind; [apply Hupd; [exact Hw|exact Ho1]|]. intros [w1' r1] [w2' r2] [H1 H2]. cbn in H1, H2. subst r2.
      eapply rrel_bind; [apply IH; [exact H1|exact Ho2]|]. intros [a1 b1] [a2 b2] [H3 H4]. cbn in *. subst. auto.
    - eapply rrel_bind; [apply Hprd; [exact Hw|exact Ho1]|]. intros [w1' r1] [w2' r2] [H1 H2]. cbn in H1, H2. subst r2.
      eapply rrel_bind; [apply IH; [exact H1|exact Ho2]|]. intros [a1 b1] [a2 b2] [H3 H4]. cbn in *. subst. auto.
  Qed.

  Lemma orun_sim_returned ops w1 w2 : Rw w1 w2 -> Forall okop ops ->
    returned (orun new1 copy1 del1 upd1 prd1 w1 ops) = returned (orun new2 copy2 del2 upd2 prd2 w2 ops).
  Proof.
    intros Hw Ho. pose proof (orun_sim ops w1 w2 Hw Ho) as H.
    destruct (orun new1 copy1 del1 upd1 prd1 w1 ops) as [[a rs]|], (orun new2 copy2 del2 upd2 prd2 w2 ops) as [[b rs']|];
      cbn in *; try contradiction; [destruct H; congruence|congruence].
  Qed.
End sim.

Section deep_sim.
  Context {O1 O2 : Type} (Ro : O1 -> O2 -> Prop).
  Variables (mk1 : Z -> O1) (upd1 : O1 -> Z -> list Z -> R -> result (O1 * R)) (prd1 : O1 -> Z -> list Z -> result (O1 * R)).
  Variables (mk2 : Z -> O2) (upd2 : O2 -> Z -> list Z -> R -> result (O2 * R)) (prd2 : O2 -> Z -> list Z -> result (O2 * R)).
  Variables (okn : Z -> Prop) (oku : Z -> list Z -> R -> Prop) (okp : Z -> list Z -> Prop).
  Hypothesis Hmk : forall d, okn d -> Ro (mk1 d) (mk2 d).
  Hypothesis Hupd : forall o1 o2 a h x, Ro o1 o2 -> oku a h x ->
    rrel (rsame Ro) (upd1 o1 a h x) (upd2 o2 a h x).
  Hypothesis Hprd : forall o1 o2 a h, Ro o1 o2 -> okp a h ->
    rrel (rsame Ro) (prd1 o1 a h) (prd2 o2 a h).

  Definition orel (x : option O1) (y : option O2) : Prop :=
    match x, y with Some a, Some b => Ro a b | None, None => True | _, _ => False end.

  Lemma F2_nth (l1 : list (option O1)) l2 i : Forall2 orel l1 l2 -> rrel Ro (dget l1 i) (dget l2 i).
  Proof.
    intros H. unfold dget. revert i. induction H as [|x y l1 l2 Hx H IH]; intros [|i]; cbn; auto.
    destruct x, y; cbn in *; try contradiction; auto.
  Qed.

  Lemma F2_set (l1 : list (option O1)) l2 i x y : Forall2 orel l1 l2 -> orel x y ->
    Forall2 orel (list_set l1 i x) (list_set l2 i y).
  Proof.
    intros H Hx. revert i. induction H as [|a b l1 l2 Ha H IH]; intros [|i]; cbn; constructor; auto.
  Qed.

  Lemma F2_app (l1 : list (option O1)) l2 x y : Forall2 orel l1 l2 -> orel x y ->
    Forall2 orel (l1 ++ [x]) (l2 ++ [y]).
  Proof. intros H Hx. apply Forall2_app; [exact H|]. constructor; [exact Hx|constructor]. Qed.

  Lemma deep_sim_from ops w1 w2 : Forall2 orel w1 w2 -> Forall (okop okn oku okp) ops ->
    rrel (fun x y => Forall2 orel (fst x) (fst y) /\ snd x = snd y)
      (orun (deep_new mk1) (deep_copy (O := O1)) (deep_del (O := O1)) (deep_update upd1) (deep_predict prd1) w1 ops)
      (orun (deep_new mk2) (deep_copy (O := O2)) (deep_del (O := O2)) (deep_update upd2) (deep_predict prd2) w2 ops).
  Proof.
    apply (orun_sim (Forall2 orel)).
    - intros a b d H Hd. cbn. apply F2_app; [exact H|]. cbn. apply Hmk. exact Hd.
    - intros a b i H. unfold deep_copy. eapply rrel_bind; [apply F2_nth; exact H|]. intros o1 o2 Ho. cbn.
      apply F2_app; [exact H|exact Ho].
    - intros a b i H. unfold deep_del. eapply rrel_bind; [apply F2_nth; exact H|]. intros o1 o2 Ho. cbn.
      apply F2_set; [exact H|exact I].
    - intros a b i s h x H Hx. unfold deep_update. eapply rrel_bind; [apply F2_nth; exact H|]. intros o1 o2 Ho.
      eapply rrel_bind; [apply Hupd; [exact Ho|exact Hx]|]. intros [o1' r1] [o2' r2] [H1 H2]. cbn in *. subst.
      split; [apply F2_set; [exact H|exact H1]|reflexivity].
    - intros a b i s h H Hx. unfold deep_predict. eapply rrel_bind; [apply F2_nth; exact H|]. intros o1 o2 Ho.
      eapply rrel_bind; [apply Hprd; [exact Ho|exact Hx]|]. intros [o1' r1] [o2' r2] [H1 H2]. cbn in *. subst.
      split; [apply F2_set; [exact H|exact H1]|reflexivity].
  Qed.

  Lemma deep_sim ops : Forall (okop okn oku okp) ops ->
    returned (deep_run mk1 upd1 prd1 ops) = returned (deep_run mk2 upd2 prd2 ops).
  Proof.
    intros Ho. unfold deep_run.
    pose proof (deep_sim_from ops [] [] (Forall2_nil _) Ho) as H.
    destruct (orun _ _ _ _ _ ([] : list (option O1)) ops) as [[a rs]|], (orun _ _ _ _ _ ([] : list (option O2)) ops) as [[b rs']|];
      cbn in *; try contradiction; [destruct H; congruence|congruence].
  Qed.
End deep_sim.

Lemma okop_any ops : Forall (okop (fun _ => True) (fun _ _ _ => True) (fun _ _ => True)) ops.
Proof. apply Forall_forall. intros [] _; exact I. Qed.
