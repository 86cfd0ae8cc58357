(** What LogStoreUniform retains. *)
From Verif Require Import Model.Stores Proofs.StoreFacts.
From Coq Require Import Lia Arith.
Open Scope nat_scope.

Definition evens (r : nat) : list nat := map (fun i => 2 * i) (seq 0 (S r)).
Definition thinned (j r : nat) : list nat := evens r ++ seq (2 * r + 1) (j + 1 - r).

Lemma evens_length r : length (evens r) = S r.
Proof. unfold evens. rewrite map_length, seq_length. reflexivity. Qed.

Lemma thinned_length j r : r <= j -> length (thinned j r) = j + 2.
Proof. intros H. unfold thinned. rewrite app_length, evens_length, seq_length. lia. Qed.

Lemma list_del_app {X} (l1 l2 : list X) x : list_del (l1 ++ x :: l2) (length l1) = l1 ++ l2.
Proof. induction l1 as [|y l1 IH]; cbn; [reflexivity|]. rewrite IH. reflexivity. Qed.

Lemma list_del_map {X Y} (h : X -> Y) (l : list X) k : list_del (map h l) k = map h (list_del l k).
Proof. revert k; induction l as [|x l IH]; intros [|k]; cbn; try reflexivity. rewrite IH. reflexivity. Qed.

Lemma grow j : seq 0 (j + 1) ++ [j + 1] = thinned j 0.
Proof.
  unfold thinned, evens. cbn [seq map]. rewrite Nat.mul_0_r.
  change ([0] ++ seq (0 + 1) (j + 1 - 0)) with (seq 0 (S (j + 1 - 0))).
  replace (S (j + 1 - 0)) with (S (j + 1)) by lia. rewrite seq_S. reflexivity.
Qed.

Lemma thin j r : r <= j -> list_del (thinned j r ++ [j + 2 + r]) (r + 1) = thinned j (S r).
Proof.
  intros H. unfold thinned. rewrite <- app_assoc.
  assert (E : seq (2 * r + 1) (j + 1 - r) ++ [j + 2 + r] = (2 * r + 1) :: seq (2 * r + 2) (j + 1 - r)).
  { replace (j + 2 + r) with (2 * r + 1 + (j + 1 - r)) by lia. rewrite <- seq_S. cbn [seq]. f_equal. f_equal; lia. }
  rewrite E. replace (r + 1) with (length (evens r)) by (rewrite evens_length; lia). rewrite list_del_app.
  assert (E2 : evens (S r) = evens r ++ [2 * r + 2]).
  { unfold evens. rewrite (seq_S (S r) 0), map_app. cbn [map]. f_equal. f_equal. lia. }
  rewrite E2, <- app_assoc. f_equal. replace (j + 1 - r) with (S (j - r)) by lia. cbn [seq].
  replace (j + 1 - S r) with (j - r) by lia. cbn [app]. f_equal. f_equal. lia.
Qed.

Lemma thinned_done j : thinned j (S j) = map (fun i => 2 * i) (seq 0 (j + 2)).
Proof.
  unfold thinned, evens. replace (j + 1 - S j) with 0 by lia. cbn [seq]. rewrite app_nil_r.
  replace (j + 2) with (S (S j)) by lia. reflexivity.
Qed.

Section uniform.
  Context {A : Type}.
  Implicit Types (f : nat -> A) (s : ustore A).

  Definition uinv f (n : nat) s : Prop :=
    exists j, us_gap s = Z.of_nat (2 ^ j) /\
      ((us_items s = map (fun i => f (2 ^ j * i)) (seq 0 (j + 1)) /\ us_remove s = 0%Z /\
        j * 2 ^ j < n <= (j + 1) * 2 ^ j /\ us_skip s = Z.of_nat ((j + 1) * 2 ^ j - n))
       \/ exists r, r <= j /\
        us_items s = map (fun i => f (2 ^ j * i)) (thinned j r) /\ us_remove s = Z.of_nat (r + 1) /\
        (j + 1 + r) * 2 ^ j < n <= (j + 2 + r) * 2 ^ j /\ us_skip s = Z.of_nat ((j + 2 + r) * 2 ^ j - n)).

  Lemma uinv_first f : exists s, us_add us_init (f 0) = Ok s /\ uinv f 1 s.
  Proof.
    eexists. split; [reflexivity|]. exists 0. split; [reflexivity|]. left. split; [reflexivity|].
    split; [reflexivity|]. split; [cbn; lia|reflexivity].
  Qed.

  Lemma uinv_step f n s : uinv f n s -> exists s', us_add s (f n) = Ok s' /\ uinv f (S n) s'.
  Proof.
    intros (j & Hg & H). assert (Hp : 0 < 2 ^ j) by (apply Nat.neq_0_lt_0, Nat.pow_nonzero; lia).
    unfold us_add, us_lazy_add. destruct H as [(Hi & Hr & Hn & Hs) | (r & Hrj & Hi & Hr & Hn & Hs)].
    - destruct (Nat.eq_dec n ((j + 1) * 2 ^ j)) as [En|Hlt].
      + replace (us_skip s =? 0)%Z with true by (symmetry; apply Z.eqb_eq; lia). cbn [negb].
        rewrite Hr, Hi. cbn [Z.ltb Z.compare bind].
        assert (E : map (fun i => f (2 ^ j * i)) (seq 0 (j + 1)) ++ [f n] = map (fun i => f (2 ^ j * i)) (thinned j 0)).
        { rewrite <- grow, map_app. cbn [map]. do 3 f_equal. lia. }
        rewrite E, map_length, thinned_length by lia.
        replace ((0 + 1 >=? Z.of_nat (j + 2))%Z) with false by (symmetry; rewrite Z.geb_leb, Z.leb_gt; lia).
        eexists. split; [reflexivity|]. exists j. cbn [us_gap us_items us_remove us_skip].
        split; [exact Hg|]. right. exists 0. split; [lia|]. split; [reflexivity|]. split; [lia|].
        split; [nia|]. rewrite Hg. rewrite En. nia.
      + replace (us_skip s =? 0)%Z with false by (symmetry; apply Z.eqb_neq; lia). cbn [negb bind].
        eexists. split; [reflexivity|]. exists j. cbn [us_gap us_items us_remove us_skip].
        split; [exact Hg|]. left. split; [exact Hi|]. split; [exact Hr|]. split; lia.
    - destruct (Nat.eq_dec n ((j + 2 + r) * 2 ^ j)) as [En|Hlt].
      + replace (us_skip s =? 0)%Z with true by (symmetry; apply Z.eqb_eq; lia). cbn [negb].
        rewrite Hr, Hi. replace (0 <? Z.of_nat (r + 1))%Z with true by (symmetry; apply Z.ltb_lt; lia).
        assert (E : map (fun i => f (2 ^ j * i)) (thinned j r) ++ [f n] = map (fun i => f (2 ^ j * i)) (thinned j r ++ [j + 2 + r])).
        { rewrite map_app. cbn [map]. do 3 f_equal. lia. }
        rewrite E. unfold py_del, py_index. replace (Z.of_nat (r + 1) <? 0)%Z with false by (symmetry; apply Z.ltb_ge; lia).
        rewrite map_length, app_length, thinned_length by lia. cbn [length].
        replace ((0 <=? Z.of_nat (r + 1))%Z && (Z.of_nat (r + 1) <? Z.of_nat (j + 2 + 1))%Z) with true
          by (symmetry; apply andb_true_iff; rewrite Z.leb_le, Z.ltb_lt; lia).
        cbn [bind]. rewrite Nat2Z.id, list_del_map, thin by exact Hrj.
        rewrite map_length.
        destruct (Nat.eq_dec r j) as [->|Hne].
        * rewrite thinned_done, map_length, seq_length.
          replace ((Z.of_nat (j + 1) + 1 >=? Z.of_nat (j + 2))%Z) with true by (symmetry; rewrite Z.geb_leb, Z.leb_le; lia).
          eexists. split; [reflexivity|]. exists (S j). cbn [us_gap us_items us_remove us_skip].
          split; [rewrite Nat.pow_succ_r'; lia|]. left.
          split; [|split; [reflexivity|]].
          { rewrite map_map. replace (S j + 1) with (j + 2) by lia. apply map_ext. intros i.
            f_equal. rewrite Nat.pow_succ_r'. lia. }
          rewrite Hg, Nat.pow_succ_r'. split; [nia|]. rewrite En. nia.
        * rewrite thinned_length by lia.
          replace ((Z.of_nat (r + 1) + 1 >=? Z.of_nat (j + 2))%Z) with false by (symmetry; rewrite Z.geb_leb, Z.leb_gt; lia).
          eexists. split; [reflexivity|]. exists j. cbn [us_gap us_items us_remove us_skip].
          split; [exact Hg|]. right. exists (S r). split; [lia|]. split; [reflexivity|]. split; [lia|].
          split; [nia|]. rewrite Hg, En. nia.
      + replace (us_skip s =? 0)%Z with false by (symmetry; apply Z.eqb_neq; lia). cbn [negb bind].
        eexists. split; [reflexivity|]. exists j. cbn [us_gap us_items us_remove us_skip].
        split; [exact Hg|]. right. exists r. split; [exact Hrj|]. split; [exact Hi|]. split; [exact Hr|]. split; lia.
  Qed.

  Lemma us_adds_app s (xs ys : list A) : us_adds s (xs ++ ys) = bind (us_adds s xs) (fun s' => us_adds s' ys).
  Proof.
    revert s; induction xs as [|x xs IH]; intros s; cbn; [reflexivity|].
    destruct (us_add s x) as [s'|e]; cbn; [apply IH|reflexivity].
  Qed.

  Lemma uinv_run f n : 0 < n -> exists s, us_adds (us_init : ustore A) (map f (seq 0 n)) = Ok s /\ uinv f n s.
  Proof.
    induction n as [|n IH]; intros Hn; [lia|]. destruct (Nat.eq_0_gt_0_cases n) as [->|Hn'].
    - destruct (uinv_first f) as (s & Hs & Hi). exists s. cbn [seq map us_adds]. rewrite Hs. cbn [bind]. auto.
    - destruct (IH Hn') as (s & Hs & Hi). destruct (uinv_step f n s Hi) as (s' & Hs' & Hi').
      exists s'. rewrite seq_S, map_app, us_adds_app, Hs. cbn [bind map us_adds]. rewrite Nat.add_0_l, Hs'.
      cbn. auto.
  Qed.

  Lemma map_nth_seq (xs : list A) d : map (fun i => nth i xs d) (seq 0 (length xs)) = xs.
  Proof.
    induction xs as [|x xs IH]; [reflexivity|]. cbn [length seq map nth]. f_equal.
    rewrite <- seq_shift, map_map. exact IH.
  Qed.

  (** consecutive entries differ by g or 2g *)
  Definition spaced (g : nat) (l : list nat) : Prop :=
    forall i a b, nth_error l i = Some a -> nth_error l (S i) = Some b -> b = a + g \/ b = a + 2 * g.

  Lemma spaced_nil g : spaced g [].
  Proof. intros [|i] a b H; discriminate. Qed.

  Lemma spaced_cons g x l : (forall y, hd_error l = Some y -> y = x + g \/ y = x + 2 * g) -> spaced g l -> spaced g (x :: l).
  Proof.
    intros Hx Hl [|i] a b Ha Hb; cbn [nth_error] in *.
    - injection Ha as <-. apply Hx. destruct l; cbn in *; congruence.
    - exact (Hl i a b Ha Hb).
  Qed.

  Lemma spaced_seq g a n : spaced g (map (fun i => g * i) (seq a n)).
  Proof.
    revert a; induction n as [|n IH]; intros a; [apply spaced_nil|]. cbn [seq map].
    apply spaced_cons; [|apply IH]. destruct n; cbn; [discriminate|]. intros y [= <-]. left. lia.
  Qed.

  Lemma spaced_thinned_from g a r b k : (k = 0 \/ b = 2 * (a + r) + 1) ->
    spaced g (map (fun i => g * i) (map (fun i => 2 * i) (seq a (S r)) ++ seq b k)).
  Proof.
    revert a; induction r as [|r IH]; intros a Hb.
    - cbn [seq map app]. apply spaced_cons; [|apply spaced_seq]. destruct k; cbn; [discriminate|].
      intros y [= <-]. left. destruct Hb as [Hb| ->]; [discriminate|]. lia.
    - rewrite <- cons_seq. cbn [map app]. apply spaced_cons; [|apply IH; destruct Hb; [left|right]; lia].
      cbn. intros y [= <-]. right. lia.
  Qed.

  Lemma uniform_items (xs : list A) : xs <> [] ->
    exists s idx j newest,
      us_adds us_init xs = Ok s /\
      map Some (us_items s) = map (nth_error xs) idx /\
      us_gap s = Z.of_nat (2 ^ j) /\
      hd_error idx = Some 0 /\ spaced (2 ^ j) idx /\
      nth_error idx (length idx - 1) = Some newest /\ newest < length xs <= newest + 2 ^ j /\
      length idx <= Nat.log2 (length xs) + 2 /\
      length xs <= length idx * 2 ^ length idx.
  Proof.
    intros Hne. destruct xs as [|d xs']; [congruence|]. set (xs := d :: xs') in *. set (n := length xs).
    assert (Hn : 0 < n) by (unfold n, xs; cbn; lia).
    destruct (uinv_run (fun i => nth i xs d) n Hn) as (s & Hs & (j & Hg & Hph)).
    unfold n in Hs at 1. rewrite map_nth_seq in Hs.
    assert (Hp : 0 < 2 ^ j) by (apply Nat.neq_0_lt_0, Nat.pow_nonzero; lia).
    assert (Hmap : forall ms : list nat, (forall m, In m ms -> 2 ^ j * m < n) ->
              map Some (map (fun i => nth (2 ^ j * i) xs d) ms) = map (nth_error xs) (map (fun i => 2 ^ j * i) ms)).
    { intros ms Hms. rewrite !map_map. apply map_ext_in. intros m Hm. symmetry. apply nth_error_nth', Hms, Hm. }
    destruct Hph as [(Hi & _ & Hb & _) | (r & Hr & Hi & _ & Hb & _)].
    - exists s, (map (fun i => 2 ^ j * i) (seq 0 (j + 1))), j, (2 ^ j * j).
      assert (Hlen : length (map (fun i => 2 ^ j * i) (seq 0 (j + 1))) = j + 1) by (rewrite map_length, seq_length; reflexivity).
      rewrite Hlen. split; [exact Hs|]. split.
      { rewrite Hi. apply Hmap. intros m Hm. apply in_seq in Hm. nia. }
      split; [exact Hg|]. split; [rewrite Nat.add_1_r; cbn; f_equal; lia|]. split; [apply spaced_seq|].
      split. { rewrite nth_error_map, (nth_error_nth' _ 0) by (rewrite seq_length; lia). cbn [option_map].
        rewrite seq_nth by lia. do 2 f_equal. lia. }
      split; [nia|]. split.
      + assert (j <= Nat.log2 n); [|lia]. destruct (Nat.eq_0_gt_0_cases j) as [->|Hj]; [lia|].
        apply Nat.log2_le_pow2; [lia|]. nia.
      + fold n. rewrite Nat.pow_add_r. cbn [Nat.pow]. nia.
    - exists s, (map (fun i => 2 ^ j * i) (thinned j r)), j, (2 ^ j * (j + 1 + r)).
      assert (Hlen : length (map (fun i => 2 ^ j * i) (thinned j r)) = j + 2) by (rewrite map_length; apply thinned_length, Hr).
      rewrite Hlen. split; [exact Hs|]. split.
      { rewrite Hi. apply Hmap. intros m Hm. unfold thinned, evens in Hm. rewrite in_app_iff, in_map_iff, in_seq in Hm.
        destruct Hm as [(i & <- & Hi')|Hm]; [apply in_seq in Hi'|]; nia. }
      split; [exact Hg|]. split; [unfold thinned, evens; cbn; f_equal; lia|].
      split; [unfold thinned, evens; apply spaced_thinned_from; right; lia|].
      split. { rewrite nth_error_map. unfold thinned. rewrite nth_error_app2 by (rewrite evens_length; lia).
        rewrite evens_length, (nth_error_nth' _ 0) by (rewrite seq_length; lia). cbn [option_map].
        rewrite seq_nth by lia. do 2 f_equal. lia. }
      split; [nia|]. split.
      + assert (j <= Nat.log2 n); [|lia]. apply Nat.log2_le_pow2; [lia|]. nia.
      + fold n. rewrite Nat.pow_add_r. cbn [Nat.pow]. nia.
  Qed.

  Lemma uniform_getitem_newest s x : us_items s <> [] -> us_getitem s 0 = Ok x <-> hd_error (us_iter s) = Some x.
  Proof.
    intros Hne. unfold us_getitem, us_iter, py_get, py_index.
    destruct (us_items s) as [|y l _] using rev_ind; [congruence|]. rewrite rev_app_distr, app_length. cbn [length rev app hd_error].
    replace (Z.of_nat (length l + 1) - 0 - 1 <? 0)%Z with false by (symmetry; apply Z.ltb_ge; lia).
    replace (_ && _)%bool with true by (symmetry; apply andb_true_iff; rewrite Z.leb_le, Z.ltb_lt; lia).
    cbn [bind]. replace (Z.to_nat (Z.of_nat (length l + 1) - 0 - 1)) with (length l) by lia.
    rewrite nth_error_app2, Nat.sub_diag by lia. cbn. split; congruence.
  Qed.

  (** in general s[i] is the i-th item of the iteration, for 0 <= i < len *)
  Lemma uniform_getitem s i : (i < length (us_items s)) ->
    exists x, us_getitem s (Z.of_nat i) = Ok x /\ nth_error (us_iter s) i = Some x.
  Proof.
    intros Hi. unfold us_getitem, us_iter, py_get, py_index. set (l := us_items s) in *.
    replace (Z.of_nat (length l) - Z.of_nat i - 1 <? 0)%Z with false by (symmetry; apply Z.ltb_ge; lia).
    replace (_ && _)%bool with true by (symmetry; apply andb_true_iff; rewrite Z.leb_le, Z.ltb_lt; lia).
    cbn [bind]. replace (Z.to_nat (Z.of_nat (length l) - Z.of_nat i - 1)) with (length l - S i) by lia.
    destruct (nth_error l (length l - S i)) as [x|] eqn:E.
    - exists x. split; [reflexivity|]. rewrite <- E.
      destruct l as [|d l'] eqn:El; [cbn in Hi; lia|]. rewrite <- El in *.
      rewrite (nth_error_nth' (rev l) d) by (rewrite rev_length; lia).
      rewrite (nth_error_nth' l d) by lia. f_equal. apply rev_nth, Hi.
    - apply nth_error_None in E. lia.
  Qed.

  (** Negative indices never work: s[-1] is always an IndexError. *)
  Lemma uniform_getitem_negative s : us_getitem s (-1) = Err IndexError.
  Proof.
    unfold us_getitem, py_get, py_index. set (n := Z.of_nat (length (us_items s))).
    replace (n - -1 - 1 <? 0)%Z with false by (symmetry; apply Z.ltb_ge; unfold n; lia).
    replace (n - -1 - 1)%Z with n by lia. rewrite (Z.ltb_irrefl n), andb_false_r. reflexivity.
  Qed.

  (** s[len(s)] wraps round to the newest item instead of raising IndexError. *)
  Lemma uniform_getitem_wraps s : us_items s <> [] ->
    us_getitem s (Z.of_nat (length (us_items s))) = us_getitem s 0.
  Proof.
    intros Hne. unfold us_getitem, py_get, py_index. set (l := us_items s) in *.
    assert (0 < length l) by (destruct l; [congruence|cbn; lia]).
    replace (Z.of_nat (length l) - Z.of_nat (length l) - 1)%Z with (-1)%Z by lia.
    change (-1 <? 0)%Z with true. cbv iota.
    replace (Z.of_nat (length l) - 0 - 1 <? 0)%Z with false by (symmetry; apply Z.ltb_ge; lia).
    replace (-1 + Z.of_nat (length l))%Z with (Z.of_nat (length l) - 0 - 1)%Z by lia. reflexivity.
  Qed.
End uniform.

Lemma uniform_doctest : exists s : ustore nat,
  us_adds us_init (seq 0 16) = Ok s /\ us_iter s = [12; 8; 4; 0] /\
  us_getitem s (-1) = Err IndexError /\ us_getitem s 4 = Ok 12.
Proof. eexists. split; [vm_compute; reflexivity|]. split; [vm_compute; reflexivity|]. split; vm_compute; reflexivity. Qed.
