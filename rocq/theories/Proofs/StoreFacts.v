(** What LogStore and LogStoreUniform retain. *)
From Verif Require Import Model.Stores Model.Helpers Proofs.HelpersFacts.
From Coq Require Import Lia Arith.
Open Scope nat_scope.

Section logstore.
  Context {A : Type}.

  (** index kept in slot k after n adds *)
  Definition kept (n k : nat) : nat := 2 ^ k * (n / 2 ^ k - 1).

  Definition expected (f : nat -> A) (n : nat) : logstore A :=
    match n with
    | O => []
    | _ => map (fun k => (f (kept n k), Nat.odd (n / 2 ^ k))) (seq 0 (Nat.log2 n + 1))
    end.

  Lemma log2_half n : 2 <= n -> Nat.log2 n = S (Nat.log2 (n / 2)).
  Proof.
    intros H. assert (E : n = 2 * (n / 2) \/ n = 2 * (n / 2) + 1).
    { pose proof (Nat.div_mod n 2 ltac:(lia)). pose proof (Nat.mod_upper_bound n 2 ltac:(lia)). lia. }
    assert (Hh : 0 < n / 2) by (apply Nat.div_str_pos; lia).
    destruct E as [E|E]; rewrite E at 1.
    - apply Nat.log2_double, Hh.
    - apply Nat.log2_succ_double, Hh.
  Qed.

  Lemma expected_cons (f : nat -> A) n : 0 < n ->
    expected f n = (f (n - 1), Nat.odd n) :: expected (fun j => f (2 * j)) (n / 2).
  Proof.
    intros Hn. unfold expected at 1. destruct n as [|n']; [lia|]. set (n := S n').
    replace (Nat.log2 n + 1) with (S (Nat.log2 n)) by lia. cbn [seq map].
    f_equal.
    - unfold kept. rewrite Nat.pow_0_r, Nat.div_1_r, Nat.mul_1_l. reflexivity.
    - rewrite <- seq_shift, map_map. destruct (Nat.le_gt_cases 2 n) as [H2|H1].
      + assert (Hh : 0 < n / 2) by (apply Nat.div_str_pos; lia).
        destruct (n / 2) as [|h'] eqn:Eh; [lia|]. cbn [expected].
        rewrite (log2_half n H2), Eh. replace (Nat.log2 (S h') + 1) with (S (Nat.log2 (S h'))) by lia.
        apply map_ext. intros k. unfold kept. rewrite <- Eh.
        rewrite Nat.pow_succ_r', <- Nat.div_div by (try apply Nat.pow_nonzero; lia).
        do 2 f_equal. lia.
      + unfold n in *. destruct n'; [reflexivity|lia].
  Qed.

  Lemma ls_add_expected : forall n (f : nat -> A), ls_add (expected f n) (f n) = expected f (S n).
  Proof.
    intros n. induction n as [n IH] using lt_wf_ind. intros f.
    destruct (Nat.eq_0_gt_0_cases n) as [->|Hn]; [reflexivity|].
    rewrite (expected_cons f n Hn), (expected_cons f (S n)) by lia. cbn [ls_add].
    replace (S n - 1) with n by lia.
    assert (Hlt : n / 2 < n) by (apply Nat.div_lt; lia).
    destruct (Nat.Even_or_Odd n) as [[k ->]|[k ->]].
    - replace (Nat.odd (2 * k)) with false by (symmetry; rewrite <- Nat.negb_even, Nat.even_mul; reflexivity).
      replace (Nat.odd (S (2 * k))) with true by (symmetry; rewrite Nat.odd_succ, Nat.even_mul; reflexivity).
      replace (2 * k / 2) with k by (rewrite Nat.mul_comm, Nat.div_mul; lia).
      replace (S (2 * k) / 2) with k; [reflexivity|].
      apply Nat.div_unique with 1; lia.
    - replace (2 * k + 1 - 1) with (2 * k) by lia.
      replace (Nat.odd (2 * k + 1)) with true by (symmetry; rewrite Nat.add_1_r, Nat.odd_succ, Nat.even_mul; reflexivity).
      replace (Nat.odd (S (2 * k + 1))) with false by (symmetry; rewrite Nat.odd_succ; rewrite Nat.add_1_r, Nat.even_succ, <- Nat.negb_even, Nat.even_mul; reflexivity).
      replace ((2 * k + 1) / 2) with k in * by (apply Nat.div_unique with 1; lia).
      replace (S (2 * k + 1) / 2) with (S k) by (apply Nat.div_unique with 0; lia).
      f_equal. exact (IH k Hlt (fun j => f (2 * j))).
  Qed.

  Lemma kept_lt n k : 2 ^ k <= n -> kept n k < n.
  Proof.
    intros H. assert (Hp : 2 ^ k <> 0) by (apply Nat.pow_nonzero; lia). unfold kept.
    assert (1 <= n / 2 ^ k) by (apply Nat.div_le_lower_bound; lia).
    pose proof (Nat.mul_div_le n (2 ^ k) Hp). nia.
  Qed.

  Lemma fold_expected (xs : list A) d :
    fold_left ls_add xs ls_init = expected (fun i => nth i xs d) (length xs).
  Proof.
    induction xs as [|x xs IH] using rev_ind; [reflexivity|].
    rewrite fold_left_app, IH, app_length. cbn [fold_left length]. rewrite Nat.add_1_r.
    rewrite <- ls_add_expected. f_equal.
    - unfold expected. destruct (length xs) as [|n'] eqn:E; [reflexivity|]. rewrite <- E.
      apply map_ext_in. intros k Hk. apply in_seq in Hk.
      rewrite app_nth1; [reflexivity|]. apply kept_lt.
      etransitivity; [apply Nat.pow_le_mono_r; [lia|]|apply Nat.log2_spec; lia]. lia.
    - rewrite app_nth2, Nat.sub_diag by lia. reflexivity.
  Qed.

  (** The items retained after adding [xs], newest first. *)
  Lemma logstore_items (xs : list A) : xs <> [] ->
    map Some (ls_iter (fold_left ls_add xs ls_init)) =
    map (fun k => nth_error xs (kept (length xs) k)) (seq 0 (Nat.log2 (length xs) + 1)).
  Proof.
    intros Hne. destruct xs as [|d xs']; [congruence|]. set (xs := d :: xs') in *.
    rewrite (fold_expected xs d). unfold ls_iter, expected.
    destruct (length xs) as [|n'] eqn:E; [discriminate|]. rewrite <- E. rewrite !map_map.
    apply map_ext_in. intros k Hk. cbn [fst]. apply in_seq in Hk. symmetry. apply nth_error_nth'.
    apply kept_lt. etransitivity; [apply Nat.pow_le_mono_r; [lia|]|apply Nat.log2_spec; lia]. lia.
  Qed.

  Lemma logstore_length (xs : list A) : xs <> [] ->
    length (fold_left ls_add xs ls_init) = Nat.log2 (length xs) + 1.
  Proof.
    intros Hne. pose proof (logstore_items xs Hne) as H. apply (f_equal (@length _)) in H.
    rewrite !map_length, seq_length in H. unfold ls_iter in H. rewrite map_length in H. exact H.
  Qed.

  Lemma kept_newest n : kept n 0 = n - 1.
  Proof. unfold kept. rewrite Nat.pow_0_r, Nat.div_1_r. lia. Qed.

  Lemma kept_oldest n : 0 < n -> kept n (Nat.log2 n) = 0.
  Proof.
    intros H. unfold kept. replace (n / 2 ^ Nat.log2 n) with 1; [lia|].
    pose proof (Nat.log2_spec n H). apply Nat.div_unique with (n - 2 ^ Nat.log2 n); cbn [Nat.pow] in *; lia.
  Qed.

  Lemma nth_error_map_Some {X} (l : list X) i : nth_error (map Some l) i = option_map Some (nth_error l i).
  Proof. revert i; induction l as [|x l IH]; intros [|i]; cbn; auto. Qed.

  (** s[0] is the newest, s[-1] the very first item added. *)
  Lemma logstore_getitem_first (xs : list A) x : ls_getitem (fold_left ls_add (xs ++ [x]) ls_init) 0 = Ok x.
  Proof.
    assert (Hne : xs ++ [x] <> []) by (destruct xs; discriminate).
    pose proof (logstore_items _ Hne) as H. unfold ls_getitem, py_get, py_index.
    set (it := ls_iter _) in *. replace (Nat.log2 (length (xs ++ [x])) + 1) with (S (Nat.log2 (length (xs ++ [x])))) in H by lia.
    cbn [seq map] in H. rewrite kept_newest in H. destruct it as [|y it]; [discriminate|].
    cbn [map] in H. injection H as H _. cbn [length].
    replace ((0 <=? 0)%Z && (0 <? Z.of_nat (S (length it)))%Z) with true by (symmetry; apply andb_true_iff; rewrite Z.ltb_lt, Z.leb_le; lia).
    change (0 <? 0)%Z with false. cbn [bind Z.to_nat nth_error].
    replace ((0 <=? 0)%Z && (0 <? Z.of_nat (S (length it)))%Z) with true by (symmetry; apply andb_true_iff; rewrite Z.ltb_lt, Z.leb_le; lia).
    cbn [bind nth_error]. rewrite app_length, nth_error_app2 in H by (cbn; lia). cbn [length] in H.
    replace (length xs + 1 - 1 - length xs) with 0 in H by lia. cbn in H. congruence.
  Qed.

  Lemma logstore_getitem_last x (xs : list A) : ls_getitem (fold_left ls_add (x :: xs) ls_init) (-1) = Ok x.
  Proof.
    assert (Hne : x :: xs <> []) by discriminate.
    pose proof (logstore_items _ Hne) as H. pose proof (logstore_length _ Hne) as Hl.
    unfold ls_getitem, py_get, py_index. set (it := ls_iter _) in *.
    assert (Hit : length it = Nat.log2 (length (x :: xs)) + 1) by (unfold it, ls_iter; rewrite map_length; exact Hl).
    rewrite Hit. set (K := Nat.log2 (length (x :: xs))) in *.
    change (-1 <? 0)%Z with true. cbn iota.
    replace ((0 <=? -1 + Z.of_nat (K + 1))%Z && (-1 + Z.of_nat (K + 1) <? Z.of_nat (K + 1))%Z) with true
      by (symmetry; apply andb_true_iff; rewrite Z.ltb_lt, Z.leb_le; lia).
    cbn [bind]. replace (Z.to_nat (-1 + Z.of_nat (K + 1))) with K by lia.
    apply (f_equal (fun l => nth_error l K)) in H. rewrite nth_error_map_Some in H.
    rewrite nth_error_map, (nth_error_nth' _ 0) in H by (rewrite seq_length; lia).
    rewrite seq_nth in H by lia. cbn [option_map] in H. rewrite Nat.add_0_l in H.
    assert (EK : kept (length (x :: xs)) K = 0) by (apply kept_oldest; cbn [length]; lia).
    rewrite EK in H. cbn [nth_error] in H.
    destruct (nth_error it K) as [y|]; cbn in H; congruence.
  Qed.

  (** ** learners.LogStore *)
  Fixpoint leading_true (s : logstore A) : nat :=
    match s with (_, true) :: s' => S (leading_true s') | _ => 0 end.

  Lemma ls_add_del (s : logstore A) x : ls_iter (ls_add s x) = x :: list_del (ls_iter s) (leading_true s).
  Proof.
    revert x; induction s as [|[y b] s IH]; intros x; [reflexivity|]. destruct b; cbn [ls_add leading_true].
    - unfold ls_iter in *. cbn [map fst list_del]. rewrite IH. reflexivity.
    - reflexivity.
  Qed.

  Lemma list_del_ge {X} (l : list X) k : length l <= k -> list_del l k = l.
  Proof. revert k; induction l as [|x l IH]; intros [|k] H; cbn in *; try lia; auto. rewrite IH by lia. reflexivity. Qed.

  Lemma leading_expected : forall n (f : nat -> A), Z.of_nat (leading_true (expected f n)) = mscb (Z.of_nat n).
  Proof.
    intros n. induction n as [n IH] using lt_wf_ind. intros f.
    destruct (Nat.eq_0_gt_0_cases n) as [->|Hn]; [reflexivity|].
    rewrite (expected_cons f n Hn).
    assert (Hlt : n / 2 < n) by (apply Nat.div_lt; lia).
    destruct (Nat.Even_or_Odd n) as [[k ->]|[k ->]].
    - replace (Nat.odd (2 * k)) with false by (symmetry; rewrite <- Nat.negb_even, Nat.even_mul; reflexivity).
      cbn [leading_true]. replace (Z.of_nat (2 * k)) with (2 * Z.of_nat k)%Z by lia.
      rewrite mscb_even by lia. reflexivity.
    - replace (Nat.odd (2 * k + 1)) with true by (symmetry; rewrite Nat.add_1_r, Nat.odd_succ, Nat.even_mul; reflexivity).
      replace ((2 * k + 1) / 2) with k in * by (apply Nat.div_unique with 1; lia).
      cbn [leading_true]. replace (Z.of_nat (2 * k + 1)) with (2 * Z.of_nat k + 1)%Z by lia.
      rewrite mscb_odd by lia. rewrite <- (IH k Hlt (fun j => f (2 * j))). lia.
  Qed.

  Lemma py_del_suppressed {X} (l : list X) i : (0 <= i)%Z ->
    match py_del l i with Ok l' => l' | Err _ => l end = list_del l (Z.to_nat i).
  Proof.
    intros Hi. unfold py_del, py_index. replace (i <? 0)%Z with false by (symmetry; apply Z.ltb_ge; exact Hi).
    destruct ((0 <=? i)%Z && (i <? Z.of_nat (length l))%Z) eqn:E; cbn [bind]; [reflexivity|].
    symmetry. apply list_del_ge. apply andb_false_iff in E. rewrite Z.leb_gt, Z.ltb_ge in E. lia.
  Qed.

  Lemma learners_logstore (xs : list A) :
    lst_items (fold_left lst_add xs lst_init) = ls_iter (fold_left ls_add xs ls_init) /\
    lst_t (fold_left lst_add xs lst_init) = Z.of_nat (length xs).
  Proof.
    destruct xs as [|d xs]; [split; reflexivity|].
    induction xs as [|x xs IH] using rev_ind; [split; reflexivity|].
    change (d :: xs ++ [x]) with ((d :: xs) ++ [x]). rewrite !fold_left_app. cbn [fold_left].
    change (fold_left ls_add xs (ls_add ls_init d)) with (fold_left ls_add (d :: xs) ls_init).
    change (fold_left lst_add xs (lst_add lst_init d)) with (fold_left lst_add (d :: xs) lst_init).
    destruct IH as (IH1 & IH2). set (u := fold_left lst_add (d :: xs) lst_init) in *.
    unfold lst_add. cbn [lst_items lst_t].
    rewrite IH1, IH2. split.
    - rewrite py_del_suppressed by (apply mscb_nonneg; lia).
      rewrite ls_add_del. do 2 f_equal. rewrite (fold_expected (d :: xs) d).
      rewrite <- leading_expected with (f := fun i => nth i (d :: xs) d). lia.
    - cbn [length]. rewrite app_length. cbn [length]. lia.
  Qed.
End logstore.
