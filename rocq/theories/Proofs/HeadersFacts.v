(** The headers of an array. *)
From Coq Require Import Sorted.
From Verif Require Import Proofs.StrFacts Proofs.FileNamesFacts Proofs.UtilNamesFacts Spec.DirsSpec.
Open Scope Z_scope.

Lemma value_cons a s : digits_value (a :: s) = (a - 48) * 10 ^ Z.of_nat (length s) + digits_value s.
Proof. unfold digits_value at 1. cbn [fold_left]. now rewrite value_from. Qed.
Lemma value_range s : forallb is_digit s = true -> 0 <= digits_value s < 10 ^ Z.of_nat (length s).
Proof.
  induction s as [|a s IH]; intros H; [cbn; lia|]. cbn [forallb] in H. apply andb_true_iff in H as [Ha H]. apply digit_range in Ha.
  specialize (IH H). rewrite value_cons. cbn [length]. rewrite Nat2Z.inj_succ, Z.pow_succ_r by lia. nia.
Qed.
Lemma value_order : forall s t, length s = length t -> forallb is_digit s = true -> forallb is_digit t = true ->
  digits_value s <= digits_value t -> strle s t = true.
Proof.
  induction s as [|a s IH]; intros [|b t] HL Hs Ht H; try reflexivity; try discriminate HL. injection HL as HL.
  cbn [forallb] in Hs, Ht. apply andb_true_iff in Hs as [Ha Hs], Ht as [Hb Ht]. apply digit_range in Ha, Hb.
  rewrite !value_cons, <- HL in H. pose proof (value_range s Hs). pose proof (value_range t Ht) as Rt. rewrite <- HL in Rt.
  cbn [strle]. destruct (Z.eqb_spec a b) as [<-|N]; [apply IH; auto; lia|]. apply Z.ltb_lt. nia.
Qed.
Lemma digits_lower : forall fuel n acc ds, 0 <= n -> digits_of fuel n acc = ds ++ acc -> (1 < length ds)%nat -> 10 ^ (Z.of_nat (length ds) - 1) <= n.
Proof.
  induction fuel as [|fuel IH]; intros n acc ds Hn E HL; cbn [digits_of] in E.
  - apply (f_equal (@length _)) in E. rewrite app_length in E. lia.
  - destruct (Z.ltb_spec n 10) as [L|G]; [apply (f_equal (@length _)) in E; rewrite app_length in E; cbn [length] in E; lia|].
    assert (E2 : exists ds', digits_of fuel (n / 10) ((48 + n mod 10) :: acc) = ds' ++ (48 + n mod 10) :: acc).
    { clear. revert acc. generalize (n / 10), (48 + n mod 10). induction fuel as [|f IH]; intros m a acc; cbn [digits_of]; [now exists []|].
      destruct (m <? 10); [now exists [48 + m mod 10]|]. destruct (IH (m / 10) (48 + m mod 10) (a :: acc)) as [d ->].
      exists (d ++ [48 + m mod 10]). now rewrite <- app_assoc. }
    destruct E2 as [ds' E2]. pose proof E2 as E3. rewrite E in E2. change ((48 + n mod 10) :: acc) with ([48 + n mod 10] ++ acc) in E2. rewrite app_assoc in E2.
    apply app_inv_tail in E2. subst ds. rewrite app_length in *. cbn [length] in *. pose proof (Z.div_mod n 10 ltac:(lia)). pose proof (Z.mod_pos_bound n 10 ltac:(lia)).
    replace (Z.of_nat (length ds' + 1) - 1) with (Z.of_nat (length ds')) by lia.
    destruct (Nat.eq_dec (length ds') 1) as [E1|N1]; [rewrite E1; cbn; lia|].
    specialize (IH (n / 10) _ _ ltac:(apply Z.div_pos; lia) E3 ltac:(lia)).
    replace (Z.of_nat (length ds')) with (Z.succ (Z.of_nat (length ds') - 1)) by lia. rewrite Z.pow_succ_r by lia. lia.
Qed.
Lemma width_mono i n : 0 <= i <= n -> (length (str_of_nat i) <= length (str_of_nat n))%nat.
Proof.
  intros H. destruct (Nat.leb_spec (length (str_of_nat i)) (length (str_of_nat n))) as [|G]; [assumption|exfalso].
  destruct (str_of_nat_spec n ltac:(lia)) as (N1 & N2 & N3). pose proof (value_range _ N2) as R. rewrite N3 in R.
  assert (HL : (1 < length (str_of_nat i))%nat) by (destruct (str_of_nat n); [contradiction|cbn [length] in G; lia]).
  pose proof (digits_lower (S (Z.to_nat (Z.log2 i))) i [] (str_of_nat i) ltac:(lia) ltac:(now rewrite app_nil_r) HL) as B.
  assert (10 ^ Z.of_nat (length (str_of_nat n)) <= 10 ^ (Z.of_nat (length (str_of_nat i)) - 1)) by (apply Z.pow_le_mono_r; lia). lia.
Qed.
Definition number (w : nat) (i : Z) : pystr := zfill w (str_of_int i).
Lemma number_ok w i : 0 <= i -> (length (str_of_nat i) <= w)%nat ->
  length (number w i) = w /\ forallb is_digit (number w i) = true /\ digits_value (number w i) = i.
Proof.
  intros Hi HL. unfold number, zfill, str_of_int. destruct (Z.ltb_spec i 0); [lia|]. destruct (str_of_nat_spec i Hi) as (N1 & N2 & N3).
  rewrite app_length, repeat_length, forallb_app, zeros_digits, zeros_value. repeat split; [lia|exact N2|exact N3].
Qed.
Lemma digits_clean s : forallb is_digit s = true -> uclean s = s.
Proof.
  intros H. apply uclean_id; [|apply digits_no; [exact H|unfold dash; lia]]. apply Forall_forall. intros c Hc.
  rewrite forallb_forall in H. specialize (H c Hc). apply digit_range in H. unfold safe. lia.
Qed.
Theorem header_nth name n i : (i < Z.to_nat n)%nat -> exists ds, nth_error (get_array_headers name n) i = Some (uclean name ++ dash :: ds) /\
  length ds = length (str_of_int n) /\ forallb is_digit ds = true /\ digits_value ds = Z.of_nat i.
Proof.
  intros Hi. unfold get_array_headers. rewrite nth_error_map, (nth_error_nth' _ 0%nat) by (rewrite seq_length; exact Hi). rewrite seq_nth by exact Hi.
  cbn [option_map]. fold (number (length (str_of_int n)) (Z.of_nat (0 + i))). cbn [Nat.add].
  assert (HW : (length (str_of_nat (Z.of_nat i)) <= length (str_of_int n))%nat).
  { unfold str_of_int. destruct (Z.ltb_spec n 0); [lia|]. apply width_mono. lia. }
  destruct (number_ok _ _ (Zle_0_nat i) HW) as (H1 & H2 & H3). eexists. split; [|split; [exact H1|split; [exact H2|exact H3]]].
  unfold join_items. cbn [map ustr join]. now rewrite (digits_clean _ H2).
Qed.
Theorem headers_count name n : length (get_array_headers name n) = Z.to_nat n.
Proof. unfold get_array_headers. now rewrite map_length, seq_length. Qed.
Lemma strle_same p s t : strle (p ++ s) (p ++ t) = strle s t.
Proof. induction p as [|a p IH]; [reflexivity|]. cbn [app strle]. rewrite Z.eqb_refl. exact IH. Qed.
Theorem headers_order name n i j hi hj : nth_error (get_array_headers name n) i = Some hi -> nth_error (get_array_headers name n) j = Some hj ->
  strle hi hj = true <-> (i <= j)%nat.
Proof.
  intros Hi Hj. assert (Bi : (i < Z.to_nat n)%nat) by (rewrite <- (headers_count name); apply nth_error_Some; congruence).
  assert (Bj : (j < Z.to_nat n)%nat) by (rewrite <- (headers_count name); apply nth_error_Some; congruence).
  destruct (header_nth name n i Bi) as (d & E & L & D & V), (header_nth name n j Bj) as (e & E' & L' & D' & V').
  rewrite E in Hi. rewrite E' in Hj. injection Hi as <-. injection Hj as <-. rewrite strle_same. cbn [strle]. rewrite Z.eqb_refl.
  split; [|intros H; apply value_order; (assumption || lia)].
  intros H. destruct (Nat.leb_spec i j); [assumption|]. assert (strle e d = true) by (apply value_order; (assumption || lia)).
  assert (d = e) by now apply strle_antisym. subst e. lia.
Qed.
Theorem headers_nodup name n : NoDup (get_array_headers name n).
Proof.
  apply NoDup_nth_error. intros i j Hi E. destruct (nth_error (get_array_headers name n) i) as [h|] eqn:Ei; [|apply nth_error_Some in Hi; contradiction].
  symmetry in E. pose proof (headers_order _ _ _ _ _ _ Ei E) as H1. pose proof (headers_order _ _ _ _ _ _ E Ei) as H2. rewrite strle_refl in H1, H2.
  destruct H1 as [H1 _], H2 as [H2 _]. specialize (H1 eq_refl). specialize (H2 eq_refl). lia.
Qed.
Theorem headers_apart a b m n h : Forall safe a -> ~ In dash a -> Forall safe b -> ~ In dash b ->
  In h (get_array_headers a m) -> In h (get_array_headers b n) -> a = b.
Proof.
  intros A1 A2 B1 B2 Ha Hb. apply In_nth_error in Ha as [i Hi], Hb as [j Hj].
  assert (Bi : (i < Z.to_nat m)%nat) by (rewrite <- (headers_count a); apply nth_error_Some; congruence).
  assert (Bj : (j < Z.to_nat n)%nat) by (rewrite <- (headers_count b); apply nth_error_Some; congruence).
  destruct (header_nth a m i Bi) as (d & E & _ & D & _), (header_nth b n j Bj) as (e & E' & _ & D' & _).
  rewrite E in Hi. rewrite E' in Hj. rewrite uclean_id in Hi, Hj by assumption. injection Hi as <-. injection Hj as Hj. symmetry in Hj.
  apply (f_equal (split dash)) in Hj. rewrite !split_app in Hj. rewrite !split_none in Hj; try assumption; try (apply digits_no; [assumption|unfold dash; lia]).
  now injection Hj.
Qed.
Theorem headers_same : get_array_headers (lit "a-b") 2 = get_array_headers (lit "ab") 2 /\ get_array_headers (lit "#1") 2 = get_array_headers (lit "1") 2.
Proof. split; vm_compute; reflexivity. Qed.
