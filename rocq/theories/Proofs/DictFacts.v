(** Facts about insertion-ordered dictionaries. *)
From Coq Require Import Permutation.
From Verif Require Import Model.PyDict.
Open Scope Z_scope.

Section dict.
  Context {K : Type} (keq : K -> K -> bool).
  Hypothesis keq_spec : forall x y, keq x y = true <-> x = y.

  Lemma keq_refl x : keq x x = true. Proof. now apply keq_spec. Qed.
  Lemma keq_false x y : x <> y -> keq x y = false.
  Proof. intros N. destruct (keq x y) eqn:E; [|reflexivity]. apply keq_spec in E. contradiction. Qed.

  Section V.
    Context {V : Type}.
    Implicit Types d : list (K * V).

    Lemma get_set d k v k' :
      gd_get keq (gd_set keq d k v) k' = if keq k k' then Some v else gd_get keq d k'.
    Proof.
      induction d as [|[k0 v0] d IH]; cbn; [reflexivity|].
      destruct (keq k0 k) eqn:E; cbn.
      - apply keq_spec in E as ->. destruct (keq k k'); reflexivity.
      - rewrite IH. destruct (keq k0 k') eqn:E'; [|reflexivity].
        apply keq_spec in E' as ->. destruct (keq k k') eqn:E2; [|reflexivity].
        apply keq_spec in E2 as ->. rewrite keq_refl in E. discriminate.
    Qed.

    Lemma get_in d k v : gd_get keq d k = Some v -> In (k, v) d.
    Proof.
      induction d as [|[k0 v0] d IH]; cbn; [discriminate|].
      destruct (keq k0 k) eqn:E; [apply keq_spec in E as ->; intros [= ->]; now left|].
      intros H. right. apply IH, H.
    Qed.

    Lemma in_get d k v : NoDup (map fst d) -> In (k, v) d -> gd_get keq d k = Some v.
    Proof.
      induction d as [|[k0 v0] d IH]; cbn; [intros _ []|]. intros H Hin.
      inversion H as [|? ? N H']; subst. destruct Hin as [E|Hin].
      - injection E as -> ->. now rewrite keq_refl.
      - rewrite keq_false; [apply IH; assumption|]. intros ->. apply N.
        apply (in_map fst) in Hin. exact Hin.
    Qed.

    Lemma get_keys d k : In k (map fst d) <-> exists v, gd_get keq d k = Some v.
    Proof.
      induction d as [|[k0 v0] d IH]; cbn.
      - split; [intros []|intros [v H]; discriminate].
      - destruct (keq k0 k) eqn:E.
        + apply keq_spec in E as ->. split; [intros _; eauto|intros _; now left].
        + rewrite <- IH. split; [|now right].
          intros [->|H]; [rewrite keq_refl in E; discriminate|exact H].
    Qed.

    Lemma get_none d k : gd_get keq d k = None <-> ~ In k (map fst d).
    Proof.
      rewrite get_keys. destruct (gd_get keq d k) as [v|].
      - split; [discriminate|]. intros H. exfalso. eauto.
      - split; [|reflexivity]. intros _ [v H]. discriminate.
    Qed.

    Lemma set_keys d k v x : In x (map fst (gd_set keq d k v)) <-> x = k \/ In x (map fst d).
    Proof.
      rewrite !get_keys. setoid_rewrite get_set. destruct (keq k x) eqn:E.
      - apply keq_spec in E as ->. split; [now left|eauto].
      - split; [now right|]. intros [->|H]; [rewrite keq_refl in E; discriminate|exact H].
    Qed.

    Lemma set_nodup d k v : NoDup (map fst d) -> NoDup (map fst (gd_set keq d k v)).
    Proof.
      induction d as [|[k0 v0] d IH]; cbn; intros H; [repeat constructor; intros []|].
      inversion H as [|? ? N H']; subst. destruct (keq k0 k) eqn:E; cbn; [constructor; assumption|].
      constructor; [|apply IH, H']. intros Hin. apply set_keys in Hin as [->|Hin]; [|contradiction].
      rewrite keq_refl in E. discriminate.
    Qed.

    Lemma set_fresh d k v : ~ In k (map fst d) -> gd_set keq d k v = d ++ [(k, v)].
    Proof.
      induction d as [|[k0 v0] d IH]; cbn; intros N; [reflexivity|].
      rewrite keq_false by tauto. f_equal. apply IH. tauto.
    Qed.

    Lemma of_nodup (pairs : list (K * V)) : NoDup (map fst pairs) -> gd_of keq pairs = pairs.
    Proof.
      intros H. unfold gd_of.
      assert (HG : forall pairs acc, NoDup (map fst (acc ++ pairs)) ->
                fold_left (fun d p => gd_set keq d (fst p) (snd p)) pairs acc = acc ++ pairs).
      { clear -keq_spec. intros pairs. induction pairs as [|[k v] pairs IH]; intros acc H; cbn; [now rewrite app_nil_r|].
        rewrite set_fresh.
        - rewrite IH; rewrite <- app_assoc; [reflexivity|exact H].
        - rewrite map_app in H. cbn in H. apply NoDup_remove_2 in H. intros Hin. apply H.
          apply in_or_app. now left. }
      apply (HG pairs []), H.
    Qed.

    Lemma pop_keys d k x : NoDup (map fst d) ->
      In x (map fst (gd_pop keq d k)) <-> In x (map fst d) /\ x <> k.
    Proof.
      induction d as [|[k0 v0] d IH]; cbn; intros H; [tauto|].
      inversion H as [|? ? N H']; subst. destruct (keq k0 k) eqn:E; cbn.
      - apply keq_spec in E as ->. split; [intros Hx; split; [now right|congruence]|].
        intros [[->|Hx] Hn]; [congruence|exact Hx].
      - rewrite IH by exact H'. split.
        + intros [->|[Hx Hn]]; [|tauto]. split; [now left|]. intros ->. rewrite keq_refl in E. discriminate.
        + tauto.
    Qed.

    Lemma pop_nodup d k : NoDup (map fst d) -> NoDup (map fst (gd_pop keq d k)).
    Proof.
      induction d as [|[k0 v0] d IH]; cbn; intros H; [constructor|].
      inversion H as [|? ? N H']; subst. destruct (keq k0 k) eqn:E; cbn; [exact H'|].
      constructor; [|apply IH, H']. intros Hin. apply pop_keys in Hin; [|exact H']. tauto.
    Qed.

    Lemma get_pop d k x : NoDup (map fst d) ->
      gd_get keq (gd_pop keq d k) x = if keq k x then None else gd_get keq d x.
    Proof.
      induction d as [|[k0 v0] d IH]; cbn; intros H; [now destruct (keq k x)|].
      inversion H as [|? ? N H']; subst. destruct (keq k0 k) eqn:E; cbn.
      - apply keq_spec in E as ->. destruct (keq k x) eqn:E; [|reflexivity].
        apply keq_spec in E as ->. now apply get_none.
      - rewrite IH by exact H'. destruct (keq k0 x) eqn:E'; [|reflexivity].
        apply keq_spec in E' as ->. destruct (keq k x) eqn:E2; [|reflexivity].
        apply keq_spec in E2 as ->. rewrite keq_refl in E. discriminate.
    Qed.
  End V.
End dict.
