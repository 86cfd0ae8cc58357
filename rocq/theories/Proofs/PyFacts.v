(** Lemmas about the Python notions of Model/Py.v. *)
From Verif Require Import Model.Py.
From Coq Require Import ZifyBool ZifyNat.
Open Scope Z_scope.

Lemma bind_ok {A B} (x : result A) (f : A -> result B) b :
  bind x f = Ok b <-> exists a, x = Ok a /\ f a = Ok b.
Proof.
  destruct x as [a|e]; cbn; split.
  - intros H; exists a; auto.
  - intros (a' & Ha & Hf). injection Ha as ->. exact Hf.
  - discriminate.
  - intros (a' & Ha & _). discriminate.
Qed.

Lemma mapM_ok {A B} (f : A -> result B) (g : A -> B) l :
  (forall x, In x l -> f x = Ok (g x)) -> mapM f l = Ok (map g l).
Proof.
  intros H; induction l as [|x l IH]; [reflexivity|]. cbn [mapM map].
  rewrite (H x) by (left; reflexivity). cbn [bind].
  rewrite IH by (intros y Hy; apply H; right; exact Hy). reflexivity.
Qed.

Lemma mapM_inv {A B} (f : A -> result B) l ys :
  mapM f l = Ok ys -> Forall2 (fun x y => f x = Ok y) l ys.
Proof.
  revert ys; induction l as [|x l IH]; intros ys H; cbn [mapM] in H.
  - injection H as <-. constructor.
  - apply bind_ok in H as (y & Hy & H). apply bind_ok in H as (ys' & Hys & H).
    injection H as <-. constructor; [exact Hy|apply IH; exact Hys].
Qed.

Section dict.
  Context {V : Type}.
  Implicit Types d : dict V.

  Lemma dict_get_set_same d k v : dict_get (dict_set d k v) k = Some v.
  Proof.
    induction d as [|[k' v'] d IH]; cbn [dict_set dict_get].
    - rewrite Z.eqb_refl; reflexivity.
    - destruct (Z.eqb_spec k' k) as [->|Hne]; cbn [dict_get].
      + rewrite Z.eqb_refl; reflexivity.
      + destruct (Z.eqb_spec k' k); [contradiction|exact IH].
  Qed.

  Lemma dict_get_set_other d k k2 v : k2 <> k -> dict_get (dict_set d k v) k2 = dict_get d k2.
  Proof.
    intros Hne; induction d as [|[k' v'] d IH]; cbn [dict_set dict_get].
    - destruct (Z.eqb_spec k k2); [congruence|reflexivity].
    - destruct (Z.eqb_spec k' k) as [->|Hk]; cbn [dict_get].
      + destruct (Z.eqb_spec k k2); [congruence|reflexivity].
      + destruct (Z.eqb_spec k' k2); [reflexivity|exact IH].
  Qed.

  Lemma dict_get_in d k v : dict_get d k = Some v -> In (k, v) d.
  Proof.
    induction d as [|[k' v'] d IH]; cbn [dict_get]; [discriminate|].
    destruct (Z.eqb_spec k' k) as [->|Hne]; intros H.
    - injection H as ->. left; reflexivity.
    - right; auto.
  Qed.

  Lemma dict_get_none d k : dict_get d k = None <-> ~ In k (map fst d).
  Proof.
    induction d as [|[k' v'] d IH]; cbn [dict_get map fst In]; [tauto|].
    destruct (Z.eqb_spec k' k) as [->|Hne]; [split; [discriminate|intros H; exfalso; apply H; left; reflexivity]|].
    rewrite IH. tauto.
  Qed.

  Lemma dict_get_some_key d k v : dict_get d k = Some v -> In k (map fst d).
  Proof. intros H. apply dict_get_in in H. apply (in_map fst) in H. exact H. Qed.

  Lemma dict_get_key d k : In k (map fst d) -> exists v, dict_get d k = Some v.
  Proof.
    intros H. destruct (dict_get d k) as [v|] eqn:E; [eauto|].
    apply dict_get_none in E. contradiction.
  Qed.

  Lemma dict_in_get d k v : NoDup (map fst d) -> In (k, v) d -> dict_get d k = Some v.
  Proof.
    induction d as [|[k' v'] d IH]; cbn [map fst dict_get]; intros Hnd Hin; [destruct Hin|].
    inversion Hnd as [|x l Hx Hnd' Heq]; subst.
    destruct Hin as [Heq|Hin].
    - injection Heq as -> ->. rewrite Z.eqb_refl; reflexivity.
    - destruct (Z.eqb_spec k' k) as [->|Hne]; [|auto].
      exfalso; apply Hx. apply (in_map fst) in Hin. exact Hin.
  Qed.

  Lemma dict_set_keys_mem d k v : In k (map fst d) -> map fst (dict_set d k v) = map fst d.
  Proof.
    induction d as [|[k' v'] d IH]; cbn [map fst dict_set In]; [tauto|].
    destruct (Z.eqb_spec k' k) as [->|Hne]; cbn [map fst]; [reflexivity|].
    intros [H|H]; [congruence|]. rewrite IH by exact H. reflexivity.
  Qed.

  Lemma dict_set_keys_new d k v : ~ In k (map fst d) -> dict_set d k v = d ++ [(k, v)].
  Proof.
    induction d as [|[k' v'] d IH]; cbn [map fst dict_set In app]; [reflexivity|].
    intros H. destruct (Z.eqb_spec k' k) as [->|Hne]; [exfalso; apply H; left; reflexivity|].
    rewrite IH; tauto.
  Qed.

  Lemma dict_set_split d k v :
    NoDup (map fst d) -> forall v0, dict_get d k = Some v0 ->
    exists d1 d2, d = d1 ++ (k, v0) :: d2 /\ dict_set d k v = d1 ++ (k, v) :: d2 /\
                  ~ In k (map fst d1) /\ ~ In k (map fst d2).
  Proof.
    induction d as [|[k' v'] d IH]; cbn [map fst dict_get]; intros Hnd v0 Hg; [discriminate|].
    inversion Hnd as [|x l Hx Hnd' Heq]; subst.
    cbn [dict_set]. destruct (Z.eqb_spec k' k) as [->|Hne].
    - injection Hg as ->. exists [], d. cbn [app map In]. auto.
    - destruct (IH Hnd' v0 Hg) as (d1 & d2 & E1 & E2 & N1 & N2). subst d.
      exists ((k', v') :: d1), d2. rewrite E2. cbn [app map fst In]. repeat split; auto.
      intros [H|H]; [congruence|auto].
  Qed.

  Lemma dict_set_nodup d k v : NoDup (map fst d) -> NoDup (map fst (dict_set d k v)).
  Proof.
    intros H. destruct (in_dec Z.eq_dec k (map fst d)) as [Hin|Hnin].
    - rewrite dict_set_keys_mem; assumption.
    - rewrite dict_set_keys_new by assumption. rewrite map_app. cbn [map fst].
      apply NoDup_rev in H. rewrite <- (rev_involutive (map fst d ++ [k])). apply NoDup_rev.
      rewrite rev_app_distr. cbn [rev app]. constructor; [|exact H].
      rewrite <- in_rev. exact Hnin.
  Qed.

  Lemma dict_set_len_mem d k v : In k (map fst d) -> length (dict_set d k v) = length d.
  Proof.
    intros H. rewrite <- (map_length fst (dict_set d k v)), dict_set_keys_mem by exact H.
    apply map_length.
  Qed.
End dict.

(** Building a dictionary by a comprehension over distinct keys. *)
Lemma fold_dict_set_app {V X} (key : X -> Z) (val : X -> V) (l : list X) (d : dict V) :
  NoDup (map key l) -> (forall x, In x l -> ~ In (key x) (map fst d)) ->
  fold_left (fun d x => dict_set d (key x) (val x)) l d = d ++ map (fun x => (key x, val x)) l.
Proof.
  revert d; induction l as [|x l IH]; intros d Hnd Hd; cbn [fold_left map].
  - rewrite app_nil_r; reflexivity.
  - cbn [map] in Hnd. inversion Hnd as [|y l' Hx Hnd' Heq]; subst.
    rewrite dict_set_keys_new by (apply Hd; left; reflexivity).
    rewrite IH.
    + rewrite <- app_assoc. reflexivity.
    + exact Hnd'.
    + intros z Hz. rewrite map_app, in_app_iff. cbn [map fst In].
      intros [H|[H|[]]].
      * apply (Hd z); [right; exact Hz|exact H].
      * apply Hx. rewrite H. apply in_map; exact Hz.
Qed.

Lemma slice_start_neg {A} (l : list A) k :
  (0 < k)%nat -> (k <= length l)%nat -> slice_start l (- Z.of_nat k) = (length l - k)%nat.
Proof. intros H1 H2. unfold slice_start. destruct (Z.ltb_spec (- Z.of_nat k) 0); lia. Qed.

Lemma list_set_length {A} (l : list A) k x : length (list_set l k x) = length l.
Proof. revert k; induction l as [|y l IH]; intros [|k]; cbn; auto. Qed.

Lemma nth_error_list_set_same {A} (l : list A) k x :
  (k < length l)%nat -> nth_error (list_set l k x) k = Some x.
Proof. revert k; induction l as [|y l IH]; intros [|k] H; cbn in *; try lia; auto. apply IH; lia. Qed.

Lemma nth_error_list_set_other {A} (l : list A) k j x :
  j <> k -> nth_error (list_set l k x) j = nth_error l j.
Proof. revert k j; induction l as [|y l IH]; intros [|k] [|j] H; cbn; auto; try congruence. Qed.

Lemma py_get2_0 {A} (a b : A) : py_get [a; b] 0 = Ok a. Proof. reflexivity. Qed.
Lemma py_get2_1 {A} (a b : A) : py_get [a; b] 1 = Ok b. Proof. reflexivity. Qed.
Lemma py_set2_0 {A} (a b x : A) : py_set [a; b] 0 x = Ok [x; b]. Proof. reflexivity. Qed.
Lemma py_set2_1 {A} (a b x : A) : py_set [a; b] 1 x = Ok [a; x]. Proof. reflexivity. Qed.
