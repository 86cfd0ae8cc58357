(** Facts about strings: comparison, split and join, int and str. *)
From Verif Require Import Model.PyStr.
Open Scope Z_scope.

(** ** comparison *)
Lemma streq_spec : forall s t, streq s t = true <-> s = t.
Proof.
  induction s as [|a s IH]; intros [|b t]; cbn; try (split; [discriminate|discriminate]); [tauto|].
  rewrite andb_true_iff, Z.eqb_eq, IH. split; [intros [-> ->]; reflexivity|].
  intros [= -> ->]. tauto.
Qed.

Lemma strle_total : forall s t, strle s t = true \/ strle t s = true.
Proof.
  induction s as [|a s IH]; intros [|b t]; cbn; auto.
  destruct (Z.eqb_spec a b) as [->|N].
  - rewrite Z.eqb_refl. apply IH.
  - destruct (Z.eqb_spec b a); [congruence|]. rewrite !Z.ltb_lt. lia.
Qed.

Lemma strle_trans : forall s t u, strle s t = true -> strle t u = true -> strle s u = true.
Proof.
  induction s as [|a s IH]; intros [|b t] [|c u]; cbn; auto; try discriminate.
  destruct (Z.eqb_spec a b) as [->|N1].
  - destruct (Z.eqb_spec b c) as [->|N2]; [apply IH|auto].
  - rewrite Z.ltb_lt. intros H1. destruct (Z.eqb_spec b c) as [->|N2]; [|rewrite Z.ltb_lt]; intros H2;
      destruct (Z.eqb_spec a c); try lia; now apply Z.ltb_lt; lia.
Qed.

Lemma strle_antisym : forall s t, strle s t = true -> strle t s = true -> s = t.
Proof.
  induction s as [|a s IH]; intros [|b t]; cbn; auto; try discriminate.
  destruct (Z.eqb_spec a b) as [->|N].
  - rewrite Z.eqb_refl. intros H1 H2. f_equal. now apply IH.
  - destruct (Z.eqb_spec b a); [congruence|]. rewrite !Z.ltb_lt. lia.
Qed.

Lemma strle_refl s : strle s s = true.
Proof. now destruct (strle_total s s). Qed.

Lemma has_char_in c s : has_char c s = true <-> In c s.
Proof.
  unfold has_char. rewrite existsb_exists. split.
  - intros (x & Hx & E). apply Z.eqb_eq in E as ->. exact Hx.
  - intros H. exists c. split; [exact H|apply Z.eqb_refl].
Qed.

(** ** split and join *)
Section sep.
  Variable c : Z.

  Lemma split_ne s : split c s <> [].
  Proof. induction s as [|a s IH]; cbn; [discriminate|]. destruct (a =? c); [discriminate|]. now destruct (split c s). Qed.

  Lemma split_none s : ~ In c s -> split c s = [s].
  Proof.
    induction s as [|a s IH]; cbn; intros N; [reflexivity|].
    destruct (Z.eqb_spec a c); [subst; tauto|]. rewrite IH by tauto. reflexivity.
  Qed.

  Lemma split_free s : Forall (fun w => ~ In c w) (split c s).
  Proof.
    induction s as [|a s IH]; cbn; [repeat constructor; intros []|].
    destruct (Z.eqb_spec a c); [constructor; [intros []|exact IH]|].
    destruct (split c s) as [|w ws]; [repeat constructor; cbn; intuition congruence|].
    inversion IH; subst. constructor; [cbn; intuition congruence|assumption].
  Qed.

  Lemma split_app s t : split c (s ++ c :: t) = split c s ++ split c t.
  Proof.
    induction s as [|a s IH]; cbn.
    - now rewrite Z.eqb_refl.
    - destruct (Z.eqb_spec a c); cbn; [now rewrite IH|]. rewrite IH.
      pose proof (split_ne s). destruct (split c s); [contradiction|reflexivity].
  Qed.

  Lemma join_cons sep w l : l <> [] -> join sep (w :: l) = w ++ sep ++ join sep l.
  Proof. destruct l; [contradiction|reflexivity]. Qed.

  Lemma join_app sep l m : l <> [] -> m <> [] -> join sep (l ++ m) = join sep l ++ sep ++ join sep m.
  Proof.
    intros Hl Hm. induction l as [|w l IH]; [contradiction|].
    destruct l as [|w' l].
    - cbn [app]. rewrite join_cons by exact Hm. reflexivity.
    - change ((w :: w' :: l) ++ m) with (w :: ((w' :: l) ++ m)).
      rewrite !join_cons by (try discriminate; destruct l; discriminate).
      rewrite IH by discriminate. now rewrite !app_assoc.
  Qed.

  Lemma join_split s : join [c] (split c s) = s.
  Proof.
    induction s as [|a s IH]; cbn; [reflexivity|].
    destruct (Z.eqb_spec a c) as [->|N].
    - rewrite join_cons by apply split_ne. cbn. now rewrite IH.
    - pose proof (split_ne s). destruct (split c s) as [|w ws]; [contradiction|].
      destruct ws as [|w2 ws]; cbn in *; [now rewrite IH|]. rewrite <- IH. reflexivity.
  Qed.

  Lemma split_join_gen l : l <> [] -> split c (join [c] l) = flat_map (split c) l.
  Proof.
    induction l as [|w l IH]; [contradiction|]. intros _. destruct l as [|w' l].
    - cbn. now rewrite app_nil_r.
    - rewrite join_cons by discriminate. cbn [app]. rewrite split_app, IH by discriminate. reflexivity.
  Qed.

  Lemma split_join l : l <> [] -> Forall (fun w => ~ In c w) l -> split c (join [c] l) = l.
  Proof.
    intros Hl HF. rewrite split_join_gen by exact Hl. clear Hl.
    induction HF as [|w l Hw _ IH]; cbn; [reflexivity|]. rewrite split_none by exact Hw. cbn. now rewrite IH.
  Qed.

  Lemma split_length s : (2 <= length (split c s))%nat <-> In c s.
  Proof.
    induction s as [|a s IH]; cbn; [split; [lia|intros []]|].
    destruct (Z.eqb_spec a c) as [->|N]; cbn.
    - pose proof (split_ne s). destruct (split c s); [contradiction|]. cbn. split; [now left|lia].
    - pose proof (split_ne s). destruct (split c s) as [|w ws]; [contradiction|]. cbn in *. rewrite IH.
      split; [now right|]. intros [E|H']; [contradiction|exact H'].
  Qed.

  (** joining never makes fewer parts *)
  Lemma split_join_length l : l <> [] -> length (split c (join [c] l)) = length l ->
    Forall (fun w => ~ In c w) l.
  Proof.
    intros Hl. rewrite split_join_gen by exact Hl. clear Hl.
    assert (HG : forall l, (length l <= length (flat_map (split c) l))%nat).
    { clear. induction l as [|w l IH]; cbn; [lia|]. rewrite app_length.
      pose proof (split_ne w). destruct (split c w); [contradiction|]. cbn. lia. }
    induction l as [|w l IH]; cbn; [constructor|]. rewrite app_length. intros E.
    specialize (HG l). pose proof (split_ne w).
    assert (length (split c w) = 1%nat) by (destruct (split c w); [contradiction|cbn in *; lia]).
    constructor; [|apply IH; lia]. intros Hin. apply split_length in Hin. lia.
  Qed.
End sep.

Lemma removelast_app1 {A} (l : list A) x : removelast (l ++ [x]) = l.
Proof. rewrite removelast_app by discriminate. cbn. apply app_nil_r. Qed.
Lemma last_app1 {A} (l : list A) x d : last (l ++ [x]) d = x.
Proof. apply last_last. Qed.

(** ** int and str *)
Lemma value_from : forall s n, fold_left (fun n c => 10 * n + (c - 48)) s n =
  n * 10 ^ Z.of_nat (length s) + digits_value s.
Proof.
  unfold digits_value. induction s as [|a s IH]; intros n; cbn [fold_left length].
  - cbn [Z.of_nat]. rewrite Z.pow_0_r. lia.
  - rewrite IH, (IH (10 * 0 + (a - 48))), Nat2Z.inj_succ, Z.pow_succ_r by lia. ring.
Qed.

Lemma digits_of_spec : forall fuel n acc, (1 <= fuel)%nat -> 0 <= n < 2 ^ Z.of_nat fuel ->
  exists ds, digits_of fuel n acc = ds ++ acc /\ ds <> [] /\ forallb is_digit ds = true /\ digits_value ds = n.
Proof.
  induction fuel as [|fuel IH]; intros n acc Hf Hn; [lia|]. cbn [digits_of].
  assert (Hm := Z.mod_pos_bound n 10 ltac:(lia)).
  assert (Hd : is_digit (48 + n mod 10) = true).
  { unfold is_digit. apply andb_true_iff. rewrite !Z.leb_le. lia. }
  destruct (Z.ltb_spec n 10) as [L|G].
  - exists [48 + n mod 10]. split; [reflexivity|]. split; [discriminate|]. split.
    + cbn [forallb]. now rewrite Hd.
    + unfold digits_value. cbn [fold_left]. rewrite Z.mod_small by lia. lia.
  - rewrite Nat2Z.inj_succ, Z.pow_succ_r in Hn by lia.
    assert (Hq : 1 <= n / 10 < 2 ^ Z.of_nat fuel).
    { split; [apply Z.div_le_lower_bound; lia|apply Z.div_lt_upper_bound; lia]. }
    destruct (IH (n / 10) ((48 + n mod 10) :: acc)) as (ds & E & Hne & Hall & Hv).
    + destruct fuel; [cbn in Hq; lia|lia].
    + lia.
    + exists (ds ++ [48 + n mod 10]). rewrite E, <- app_assoc. split; [reflexivity|].
      split; [destruct ds; discriminate|]. split.
      * rewrite forallb_app, Hall. cbn [forallb]. now rewrite Hd.
      * unfold digits_value in *. rewrite fold_left_app. cbn [fold_left]. rewrite Hv.
        pose proof (Z.div_mod n 10 ltac:(lia)). lia.
Qed.

Lemma str_of_nat_spec n : 0 <= n ->
  str_of_nat n <> [] /\ forallb is_digit (str_of_nat n) = true /\ digits_value (str_of_nat n) = n.
Proof.
  intros Hn. unfold str_of_nat.
  destruct (digits_of_spec (S (Z.to_nat (Z.log2 n))) n []) as (ds & E & H); [lia| |now rewrite E, app_nil_r].
  rewrite Nat2Z.inj_succ, Z2Nat.id by apply Z.log2_nonneg.
  destruct (Z.eq_dec n 0) as [->|]; [cbn; lia|]. split; [lia|]. apply Z.log2_spec. lia.
Qed.

Lemma digit_range c : is_digit c = true <-> 48 <= c <= 57.
Proof. unfold is_digit. rewrite andb_true_iff, !Z.leb_le. tauto. Qed.

Lemma digits_no c s : forallb is_digit s = true -> ~ 48 <= c <= 57 -> ~ In c s.
Proof. rewrite forallb_forall. intros H N Hin. apply N, digit_range, H, Hin. Qed.

Lemma lstrip_id s : (forall c, In c s -> is_space c = false) -> lstrip s = s.
Proof. destruct s as [|a s]; cbn; [reflexivity|]. intros H. now rewrite (H a) by now left. Qed.

Lemma strip_id s : (forall c, In c s -> is_space c = false) -> strip s = s.
Proof.
  intros H. unfold strip. rewrite (lstrip_id s H), lstrip_id, rev_involutive; [reflexivity|].
  intros c Hc. apply H, in_rev, Hc.
Qed.

Lemma digit_not_space c : is_digit c = true -> is_space c = false.
Proof.
  rewrite digit_range. intros H. unfold is_space.
  replace (c <=? 13) with false by (symmetry; apply Z.leb_gt; lia).
  replace (c <=? 32) with false by (symmetry; apply Z.leb_gt; lia). now rewrite !andb_false_r.
Qed.

Section int.
  Variable uni : pystr -> option Z.

  Lemma int_digits s : s <> [] -> forallb is_digit s = true -> int_of_str uni s = Some (digits_value s).
  Proof.
    intros Hne Hd. assert (Hall := proj1 (forallb_forall _ _) Hd). unfold int_of_str.
    replace (forallb (fun c => (0 <=? c) && (c <? 128)) s) with true.
    2:{ symmetry. apply forallb_forall. intros c Hc. specialize (Hall c Hc). apply digit_range in Hall.
        apply andb_true_iff. rewrite Z.leb_le, Z.ltb_lt. lia. }
    rewrite strip_id by (intros c Hc; apply digit_not_space, Hall, Hc).
    destruct s as [|a s]; [contradiction|].
    assert (Ha : 48 <= a <= 57) by (apply digit_range, Hall; now left).
    assert (HP : parse_nat (a :: s) = Some (digits_value (a :: s))) by (unfold parse_nat; now rewrite Hd).
    assert (HE : a = 48 \/ a = 49 \/ a = 50 \/ a = 51 \/ a = 52 \/ a = 53 \/ a = 54 \/ a = 55 \/ a = 56 \/ a = 57) by lia.
    repeat destruct HE as [E|HE]; try (rewrite E in *; exact HP); rewrite HE in *; exact HP.
  Qed.

  Lemma int_minus s : s <> [] -> forallb is_digit s = true ->
    int_of_str uni (dash :: s) = Some (- digits_value s).
  Proof.
    intros Hne Hd. assert (Hall := proj1 (forallb_forall _ _) Hd). unfold int_of_str.
    replace (forallb (fun c => (0 <=? c) && (c <? 128)) (dash :: s)) with true.
    2:{ symmetry. apply forallb_forall. intros c [<-|Hc]; [reflexivity|]. specialize (Hall c Hc).
        apply digit_range in Hall. apply andb_true_iff. rewrite Z.leb_le, Z.ltb_lt. lia. }
    rewrite strip_id by (intros c [<-|Hc]; [reflexivity|apply digit_not_space, Hall, Hc]).
    unfold dash, parse_nat. destruct s; [contradiction|]. now rewrite Hd.
  Qed.

  Lemma int_str n : int_of_str uni (str_of_int n) = Some n.
  Proof.
    unfold str_of_int. destruct (Z.ltb_spec n 0).
    - destruct (str_of_nat_spec (- n)) as (H1 & H2 & H3); [lia|]. rewrite int_minus by assumption.
      rewrite H3. f_equal. lia.
    - destruct (str_of_nat_spec n) as (H1 & H2 & H3); [lia|]. rewrite int_digits by assumption. now rewrite H3.
  Qed.
End int.
