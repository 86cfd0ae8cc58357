(** Facts about the signal processing functions. *)
From Coq Require Import Lra.
From Verif Require Import Model.Signals Proofs.PyFacts Proofs.RealFacts.
Open Scope R_scope.

Lemma get_nth {A} (l : list A) i d : (i < length l)%nat -> py_get l (Z.of_nat i) = Ok (nth i l d).
Proof.
  intros H. unfold py_get, py_index. destruct (Z.ltb_spec (Z.of_nat i) 0); [lia|].
  destruct (Z.leb_spec 0 (Z.of_nat i)); [|lia]. destruct (Z.ltb_spec (Z.of_nat i) (Z.of_nat (length l))); [|lia].
  cbn [andb bind]. rewrite Nat2Z.id. now rewrite (nth_error_nth' l d H).
Qed.

Lemma set_nth {A} (l : list A) i x : (i < length l)%nat -> py_set l (Z.of_nat i) x = Ok (list_set l i x).
Proof.
  intros H. unfold py_set, py_index. destruct (Z.ltb_spec (Z.of_nat i) 0); [lia|].
  destruct (Z.leb_spec 0 (Z.of_nat i)); [|lia]. destruct (Z.ltb_spec (Z.of_nat i) (Z.of_nat (length l))); [|lia].
  cbn [andb bind]. now rewrite Nat2Z.id.
Qed.

Lemma list_set_nth {A} (l : list A) i j x d : (i < length l)%nat ->
  nth j (list_set l i x) d = if (j =? i)%nat then x else nth j l d.
Proof.
  revert i j. induction l as [|y l IH]; intros i j H; cbn in *; [lia|].
  destruct i as [|i], j as [|j]; cbn; try reflexivity. rewrite IH by lia. reflexivity.
Qed.

Lemma firstn_nth {A} (l : list A) d : forall m, (m <= length l)%nat ->
  firstn m l = map (fun k => nth k l d) (seq 0 m).
Proof.
  induction l as [|x l IH]; intros [|m] H; cbn in *; try reflexivity; [lia|].
  rewrite IH by lia. rewrite <- seq_shift, map_map. reflexivity.
Qed.

Lemma nth_skip {A} (l : list A) d : forall i k, nth k (skipn i l) d = nth (i + k) l d.
Proof.
  induction l as [|x l IH]; intros [|i] k; cbn; try reflexivity; [now destruct k|apply IH].
Qed.

Lemma window {A} (l : list A) d i m : (i + m <= length l)%nat ->
  firstn m (skipn i l) = map (fun k => nth (i + k) l d) (seq 0 m).
Proof.
  intros H. rewrite (firstn_nth _ d) by (rewrite skipn_length; lia). apply map_ext. intros k. apply nth_skip.
Qed.

Lemma skip_first {A} (l : list A) : forall i j, skipn i (firstn j l) = firstn (j - i) (skipn i l).
Proof.
  induction l as [|x l IH]; intros [|i] [|j]; cbn; try reflexivity; [now destruct (j - i)%nat|apply IH].
Qed.

Lemma nth_map_seq {A} (f : nat -> A) n i d : (i < n)%nat -> nth i (map f (seq 0 n)) d = f i.
Proof.
  intros H. rewrite nth_indep with (d' := f 0%nat) by (rewrite map_length, seq_length; lia).
  rewrite map_nth, seq_nth by lia. reflexivity.
Qed.

(** ** calculate_return *)
(** the discounted sum of the rewards from step [i] on *)
Definition discounted (g : R) (r : list R) (i : nat) : R :=
  Rsum (map (fun k => g ^ k * nth (i + k) r 0) (seq 0 (length r - i))).

Lemma discounted_step g r i : (i < length r)%nat ->
  discounted g r i = nth i r 0 + g * discounted g r (S i).
Proof.
  intros H. unfold discounted. replace (length r - i)%nat with (S (length r - S i)) by lia.
  cbn [seq map]. rewrite Rsum_cons, <- seq_shift, map_map, <- Rsum_scal_l. f_equal.
  - cbn. rewrite Nat.add_0_r. lra.
  - apply Rsum_map_ext. intros k _. rewrite <- plus_n_Sm. cbn. lra.
Qed.

Lemma discounted_end g r : discounted g r (length r) = 0.
Proof. unfold discounted. now rewrite Nat.sub_diag. Qed.

Lemma return_loop_spec r g : forall todo ret, (todo < length r)%nat -> length ret = length r ->
  (forall j, (todo <= j < length r)%nat -> nth j ret 0 = discounted g r j) ->
  exists ret', return_loop r g todo ret = Ok ret' /\ length ret' = length r /\
    forall j, (j < length r)%nat -> nth j ret' 0 = discounted g r j.
Proof.
  induction todo as [|i IH]; intros ret Ht HL HI; cbn [return_loop].
  - exists ret. split; [reflexivity|]. split; [exact HL|]. intros j Hj. apply HI. lia.
  - rewrite (get_nth r i 0) by lia. cbn [bind].
    replace (Z.of_nat i + 1)%Z with (Z.of_nat (S i)) by lia. rewrite (get_nth ret (S i) 0) by lia. cbn [bind].
    rewrite set_nth by lia. cbn [bind]. apply IH; [lia|now rewrite list_set_length|].
    intros j Hj. rewrite list_set_nth by lia. destruct (Nat.eqb_spec j i) as [->|N].
    + rewrite HI by lia. symmetry. apply discounted_step. lia.
    + apply HI. lia.
Qed.

Lemma return_discounted r g horizon : g < 1 ->
  exists ret, calculate_return r (Some g) horizon = Ok ret /\ length ret = length r /\
    forall i, (i < length r)%nat ->
      nth i ret 0 = Rsum (map (fun k => g ^ k * nth (i + k) r 0) (seq 0 (length r - i))).
Proof.
  intros Hg. destruct r as [|x r']; [exists []; repeat split; cbn; intros; lia|].
  unfold calculate_return. destruct (Rle_dec 1 g); [lra|]. set (r := x :: r') in *.
  assert (HL : (0 < length r)%nat) by (cbn; lia).
  replace (Z.of_nat (length r) - 1)%Z with (Z.of_nat (length r - 1)) by lia.
  rewrite (get_nth r (length r - 1) 0) by lia. cbn [bind].
  rewrite set_nth by (rewrite repeat_length; lia). cbn [bind].
  destruct (return_loop_spec r g (length r - 1) (list_set (repeat 0 (length r)) (length r - 1) (nth (length r - 1) r 0)))
    as (ret & E & H1 & H2).
  - lia.
  - now rewrite list_set_length, repeat_length.
  - intros j Hj. assert (j = length r - 1)%nat as -> by lia.
    rewrite list_set_nth, Nat.eqb_refl by (rewrite repeat_length; lia).
    rewrite discounted_step by lia. replace (S (length r - 1)) with (length r) by lia.
    rewrite discounted_end. lra.
  - exists ret. split; [exact E|]. split; [exact H1|exact H2].
Qed.

Lemma return_bellman r g horizon ret : g < 1 -> calculate_return r (Some g) horizon = Ok ret ->
  forall i, (i < length r)%nat -> nth i ret 0 = nth i r 0 + g * nth (S i) ret 0.
Proof.
  intros Hg E i Hi. destruct (return_discounted r g horizon Hg) as (ret' & E' & HL & HN).
  rewrite E in E'. injection E' as <-. rewrite (HN i Hi). change (discounted g r i = nth i r 0 + g * nth (S i) ret 0).
  rewrite discounted_step by exact Hi. do 2 f_equal.
  destruct (Nat.lt_ge_cases (S i) (length r)) as [L|G]; [now rewrite (HN _ L)|].
  rewrite nth_overflow by lia. assert (S i = length r) as -> by lia. apply discounted_end.
Qed.

Lemma slice_window r i h : (i <= length r)%nat -> (0 <= h)%Z ->
  slice r (Z.of_nat i) (Z.min (Z.of_nat i + h) (Z.of_nat (length r))) =
  firstn (Nat.min (Z.to_nat h) (length r - i)) (skipn (A := R) i r).
Proof.
  intros Hi Hh. unfold slice, slice_start.
  destruct (Z.ltb_spec (Z.of_nat i) 0); [lia|].
  destruct (Z.ltb_spec (Z.min (Z.of_nat i + h) (Z.of_nat (length r))) 0); [lia|].
  rewrite skip_first. replace (Z.to_nat (Z.min (Z.of_nat i) (Z.of_nat (length r)))) with i by lia.
  f_equal. lia.
Qed.

Lemma return_horizon r gamma h : (forall g, gamma = Some g -> 1 <= g) -> (0 <= h)%Z ->
  exists ret, calculate_return r gamma (Some h) = Ok ret /\ length ret = length r /\
    forall i, (i < length r)%nat ->
      nth i ret 0 = Rsum (map (fun k => nth (i + k) r 0) (seq 0 (Nat.min (Z.to_nat h) (length r - i)))).
Proof.
  intros Hg Hh. destruct r as [|x r']; [exists []; repeat split; cbn; intros; lia|].
  unfold calculate_return. set (r := x :: r') in *.
  replace (match gamma with None => None | Some g => if Rle_dec 1 g then None else Some g end) with (@None R).
  2:{ destruct gamma as [g|]; [|reflexivity]. destruct (Rle_dec 1 g) as [|N]; [reflexivity|].
      exfalso. apply N, Hg. reflexivity. }
  set (f := fun i => Rsum (slice r (Z.of_nat i) (Z.min (Z.of_nat i + h) (Z.of_nat (length r))))).
  rewrite (mapM_ok (windowed_sum r (Some h)) f) by reflexivity.
  exists (map f (seq 0 (length r))). split; [reflexivity|]. split; [now rewrite map_length, seq_length|].
  intros i Hi. rewrite nth_map_seq by exact Hi. unfold f. rewrite slice_window by lia.
  rewrite (window r 0) by lia. reflexivity.
Qed.

Lemma return_no_horizon r gamma : r <> [] -> (forall g, gamma = Some g -> 1 <= g) ->
  calculate_return r gamma None = Err TypeError.
Proof.
  intros Hr Hg. unfold calculate_return. destruct r as [|x r]; [contradiction|].
  replace (match gamma with None => None | Some g => if Rle_dec 1 g then None else Some g end) with (@None R).
  2:{ destruct gamma as [g|]; [|reflexivity]. destruct (Rle_dec 1 g) as [|N]; [reflexivity|].
      exfalso. apply N, Hg. reflexivity. }
  reflexivity.
Qed.

(** ** decay_trace *)
Lemma trace_loop_length trace mx rp : forall f prev, length (trace_loop trace mx rp prev f) = length f.
Proof. induction f as [|x f IH]; intros prev; cbn; [reflexivity|]. now rewrite IH. Qed.

Lemma trace_loop_nth trace mx rp : forall f prev i, (i < length f)%nat ->
  let d := nth i f 0 + trace * nth i (prev :: trace_loop trace mx rp prev f) 0 in
  nth i (trace_loop trace mx rp prev f) 0 = if rp then py_min2 d mx else d.
Proof.
  induction f as [|x f IH]; intros prev i Hi; cbn [length] in Hi; [lia|]. cbn zeta.
  cbn [trace_loop]. destruct i as [|i]; [reflexivity|]. cbn [nth]. apply IH. lia.
Qed.

Lemma min2_le a b : py_min2 a b <= b.
Proof. unfold py_min2. destruct (Rlt_dec b a); lra. Qed.
Lemma min2_cases a b : py_min2 a b = a \/ py_min2 a b = b.
Proof. unfold py_min2. destruct (Rlt_dec b a); tauto. Qed.

(** plain traces: every past value counts, discounted by its age *)
Lemma trace_accumulating f trace : f <> [] ->
  exists d, decay_trace f trace false = Ok d /\ length d = length f /\
    forall t, (t < length f)%nat ->
      nth t d 0 = Rsum (map (fun k => trace ^ k * nth (t - k) f 0) (seq 0 (S t))).
Proof.
  intros Hf. destruct (py_max_ok f Hf) as (m & Em & _). destruct f as [|x f]; [contradiction|].
  unfold decay_trace. rewrite Em. cbn [bind]. eexists. split; [reflexivity|].
  split; [cbn; now rewrite trace_loop_length|].
  induction t as [|t IH]; intros Ht.
  - cbn. unfold Rsum. cbn. lra.
  - cbn [length] in Ht.
    change (nth (S t) (x :: trace_loop trace m false x f) 0) with (nth t (trace_loop trace m false x f) 0).
    rewrite trace_loop_nth by lia. rewrite IH by (cbn; lia).
    replace (seq 0 (S (S t))) with (0%nat :: map S (seq 0 (S t))) by (rewrite seq_shift; reflexivity).
    cbn [map]. rewrite Rsum_cons, map_map, <- Rsum_scal_l. f_equal; [cbn; now rewrite Rmult_1_l|].
    apply Rsum_map_ext. intros k Hk. cbn [pow]. rewrite Nat.sub_succ. ring.
Qed.

(** replacing traces never exceed the largest value of the signal *)
Lemma trace_replacing f trace m : py_max f = Ok m ->
  exists d, decay_trace f trace true = Ok d /\ length d = length f /\
    (forall t, (t < length f)%nat -> nth t d 0 <= m) /\
    nth 0 d 0 = nth 0 f 0 /\
    (forall t, (S t < length f)%nat -> nth (S t) d 0 = Rmin (nth (S t) f 0 + trace * nth t d 0) m).
Proof.
  intros Em. unfold decay_trace. rewrite Em. cbn [bind].
  destruct f as [|x f]; [discriminate Em|]. eexists. split; [reflexivity|].
  split; [cbn; now rewrite trace_loop_length|].
  assert (HS : forall t, (S t < length (x :: f))%nat ->
     nth (S t) (x :: trace_loop trace m true x f) 0 =
     Rmin (nth (S t) (x :: f) 0 + trace * nth t (x :: trace_loop trace m true x f) 0) m).
  { intros t Ht. cbn [length] in Ht.
    change (nth (S t) (x :: trace_loop trace m true x f) 0) with (nth t (trace_loop trace m true x f) 0).
    change (nth (S t) (x :: f) 0) with (nth t f 0). rewrite trace_loop_nth by lia.
    unfold py_min2, Rmin.
    repeat match goal with |- context [if ?b then _ else _] => destruct b end; lra. }
  split; [|split; [reflexivity|exact HS]].
  intros [|t] Ht.
  - cbn [nth]. destruct (py_max_ok (x :: f)) as (m' & Em' & _ & HM); [discriminate|].
    rewrite Em in Em'. injection Em' as <-. apply HM. now left.
  - rewrite HS by exact Ht. apply Rmin_r.
Qed.

(** for signals and traces that are not negative, a replacing trace is at least the signal *)
Lemma trace_at_least f trace d m : py_max f = Ok m -> 0 <= trace -> (forall x, In x f -> 0 <= x) ->
  decay_trace f trace true = Ok d ->
  forall t, (t < length f)%nat -> nth t f 0 <= nth t d 0 <= m.
Proof.
  intros Em Ht Hpos E t. destruct (trace_replacing f trace m Em) as (d' & E' & _ & HB & H0 & HS).
  rewrite E in E'. injection E' as <-.
  assert (Hm : forall k, (k < length f)%nat -> 0 <= nth k f 0 <= m).
  { intros k Hk. assert (Hin : In (nth k f 0) f) by (apply nth_In; exact Hk). split; [apply Hpos, Hin|].
    destruct (py_max_ok f) as (m' & Em' & _ & HM); [intros ->; discriminate|].
    rewrite Em in Em'. injection Em' as <-. apply HM, Hin. }
  induction t as [|t IH]; intros Hk.
  - split; [rewrite H0; lra|apply HB, Hk].
  - split; [|apply HB, Hk]. rewrite HS by exact Hk. specialize (IH ltac:(lia)).
    pose proof (Hm t ltac:(lia)). pose proof (Hm (S t) Hk).
    assert (0 <= trace * nth t d 0) by (apply Rmult_le_pos; lra).
    apply Rmin_glb; lra.
Qed.

(** ** running_mean *)
Lemma Rsum_zero {A} (f : A -> R) l : (forall x, In x l -> f x = 0) -> Rsum (map f l) = 0.
Proof.
  intros H. rewrite (Rsum_map_ext f (fun _ => 0) l H). rewrite Rsum_const. lra.
Qed.

Lemma skipn_map_seq {A} (f : nat -> A) : forall i n s, skipn i (map f (seq s n)) = map f (seq (s + i) (n - i)).
Proof.
  induction i as [|i IH]; intros n s; [now rewrite Nat.add_0_r, Nat.sub_0_r|].
  destruct n as [|n]; [reflexivity|]. cbn [seq map skipn]. rewrite IH. do 2 f_equal. lia.
Qed.
Lemma firstn_map_seq {A} (f : nat -> A) : forall i n s, firstn i (map f (seq s n)) = map f (seq s (Nat.min i n)).
Proof.
  induction i as [|i IH]; intros n s; [reflexivity|]. destruct n as [|n]; [reflexivity|].
  cbn [seq map firstn Nat.min]. now rewrite IH.
Qed.

Lemma mean_spec data n : data <> [] -> (2 <= n)%Z ->
  exists ret, running_mean data n = Ok ret /\ length ret = (length data + 1 - Z.to_nat n)%nat /\
    forall i, (i < length ret)%nat ->
      nth i ret 0 = Rsum (map (fun k => nth (i + k) data 0) (seq 0 (Z.to_nat n))) / IZR n.
Proof.
  intros Hd Hn. unfold running_mean. destruct (Z.ltb_spec n 0); [lia|].
  set (N := Z.to_nat n). assert (HN : (2 <= N)%nat) by (unfold N; lia).
  set (w := map (fun x => x / IZR n) (repeat 1 N)).
  assert (Hw : length w = N) by (unfold w; now rewrite map_length, repeat_length).
  assert (Hwn : forall k, (k < N)%nat -> nth k w 0 = / IZR n).
  { intros k Hk. unfold w. rewrite nth_indep with (d' := 1 / IZR n) by (fold w; lia).
    change (1 / IZR n) with ((fun x => x / IZR n) 1) at 1. rewrite map_nth.
    rewrite (nth_repeat 1 1 N k) || rewrite nth_repeat. unfold Rdiv. lra. }
  assert (HDl : (0 < length data)%nat) by (destruct data; [contradiction|cbn; lia]).
  unfold np_convolve. destruct data as [|x0 data0] eqn:ED; [contradiction|]. rewrite <- ED in *.
  destruct w as [|w0 w'] eqn:EW; [cbn in Hw; lia|]. rewrite <- EW in *. rewrite Hw. cbn [bind].
  set (f := fun k => Rsum (map (fun j => nth j data 0 * (if (k - j <? N)%nat then
                                     if (j <=? k)%nat then nth (k - j) w 0 else 0 else 0))
                               (seq 0 (length data)))).
  eexists. split; [reflexivity|].
  assert (ES : slice (map f (seq 0 (length data + N - 1))) (n - 1) (- (n - 1)) =
               map f (seq (N - 1) (length data - (N - 1)))).
  { unfold slice, slice_start. rewrite map_length, seq_length.
    destruct (Z.ltb_spec (n - 1) 0); [lia|]. destruct (Z.ltb_spec (- (n - 1)) 0); [|lia].
    rewrite firstn_map_seq, skipn_map_seq. f_equal. f_equal; unfold N; lia. }
  rewrite ES. rewrite map_length, seq_length. split; [lia|]. intros i Hi.
  rewrite nth_indep with (d' := f 0%nat) by (rewrite map_length, seq_length; lia).
  rewrite map_nth, seq_nth by lia. unfold f.
  replace (seq 0 (length data)) with (seq 0 i ++ seq i N ++ seq (i + N) (length data - i - N)).
  2:{ change (seq i N) with (seq (0 + i) N). rewrite app_assoc, <- seq_app.
      change (seq (i + N) (length data - i - N)) with (seq (0 + (i + N)) (length data - i - N)).
      rewrite <- seq_app. f_equal. lia. }
  rewrite !map_app, !Rsum_app.
  rewrite (Rsum_zero _ (seq 0 i)).
  2:{ intros j Hj. apply in_seq in Hj. destruct (Nat.ltb_spec (N - 1 + i - j) N); [lia|lra]. }
  rewrite (Rsum_zero _ (seq (i + N) _)).
  2:{ intros j Hj. apply in_seq in Hj. destruct (Nat.ltb_spec (N - 1 + i - j) N); [|lra].
      destruct (Nat.leb_spec j (N - 1 + i)); [lia|lra]. }
  rewrite (Rsum_map_ext _ (fun j => nth j data 0 * / IZR n) (seq i N)).
  2:{ intros j Hj. apply in_seq in Hj. destruct (Nat.ltb_spec (N - 1 + i - j) N); [|lia].
      destruct (Nat.leb_spec j (N - 1 + i)); [|lia]. rewrite Hwn by lia. reflexivity. }
  rewrite Rsum_scal_r, Rplus_0_l, Rplus_0_r. unfold Rdiv. f_equal. f_equal.
  replace (seq i N) with (map (fun k => (i + k)%nat) (seq 0 N)).
  - now rewrite map_map.
  - clear. revert i. induction N as [|m IH]; intros i; cbn [seq map]; [reflexivity|].
    rewrite Nat.add_0_r. f_equal. rewrite <- (IH (S i)), <- seq_shift, map_map.
    apply map_ext. intros k. lia.
Qed.

Lemma slice00 {A} (c : list A) : slice c 0 0 = [].
Proof.
  unfold slice, slice_start. change (0 <? 0)%Z with false. cbv iota.
  rewrite Z.min_l by lia. reflexivity.
Qed.

Lemma mean_one data : data <> [] -> running_mean data 1 = Ok [].
Proof.
  intros H. unfold running_mean, np_convolve. destruct data as [|x data]; [contradiction|].
  change (1 <? 0)%Z with false. cbv iota. change (Z.to_nat 1) with 1%nat. cbn [repeat map]. cbv iota. cbn [bind].
  f_equal. change (1 - 1)%Z with 0%Z. change (- 0)%Z with 0%Z. apply slice00.
Qed.

Lemma mean_bad data n : (n <= 0)%Z \/ data = [] -> running_mean data n = Err ValueError.
Proof.
  intros H. unfold running_mean. destruct (Z.ltb_spec n 0); [reflexivity|].
  destruct H as [Hz| ->]; [|reflexivity]. replace n with 0%Z by lia. cbn. now destruct data.
Qed.

(** ** scaling *)
Lemma py_min_ok l : l <> [] -> exists m, py_min l = Ok m /\ In m l /\ forall x, In x l -> m <= x.
Proof.
  destruct l as [|x l]; [contradiction|]. intros _. cbn [py_min]. eexists. split; [reflexivity|].
  assert (H : forall l m, let r := fold_left (fun m v => if Rlt_dec v m then v else m) l m in
    In r (m :: l) /\ forall y, In y (m :: l) -> r <= y).
  { clear. induction l as [|v l IH]; intros m; cbn [fold_left].
    - split; [now left|]. intros y [->|[]]. lra.
    - specialize (IH (if Rlt_dec v m then v else m)). cbn zeta in IH. destruct IH as [H1 H2]. split.
      + destruct H1 as [E|E]; [|right; right; exact E]. rewrite <- E.
        destruct (Rlt_dec v m); [right; now left|now left].
      + assert (HH := H2 _ (or_introl eq_refl)). intros y [->|[->|Hy]].
        * destruct (Rlt_dec v y); lra.
        * destruct (Rlt_dec y m); lra.
        * apply H2. now right. }
  apply H.
Qed.

Lemma clip_id c x : 0 <= x <= c -> clip c x = x.
Proof. intros H. unfold clip. rewrite Rmax_left, Rmin_left by lra. reflexivity. Qed.
Lemma clip_alt c x : 0 <= c -> clip c x = Rmax 0 (Rmin c x).
Proof.
  intros H. unfold clip. destruct (Rle_lt_dec x 0) as [L|G].
  - rewrite (Rmax_right x) by lra. rewrite (Rmin_left 0), (Rmin_right c x), Rmax_left by lra. reflexivity.
  - rewrite (Rmax_left x) by lra. rewrite Rmin_comm, Rmax_right; [reflexivity|]. apply Rmin_glb; lra.
Qed.
Lemma clip_range c x : 0 <= c -> 0 <= clip c x <= c.
Proof. intros H. unfold clip. split; [apply Rmin_glb; [apply Rmax_r|exact H]|apply Rmin_r]. Qed.
Lemma clip_mono c x y : x <= y -> clip c x <= clip c y.
Proof. intros H. unfold clip. apply Rle_min_compat_r, Rle_max_compat_r, H. Qed.

Lemma scale_default f : (exists x y, In x f /\ In y f /\ x <> y) ->
  exists g mn mx, scale_features f None None 1 = Ok g /\ In mn f /\ In mx f /\
    (forall x, In x f -> mn <= x <= mx) /\
    g = map (fun x => (x - mn) / (mx - mn)) f /\
    (forall y, In y g -> 0 <= y <= 1) /\ In 0 g /\ In 1 g.
Proof.
  intros (x & y & Hx & Hy & Hxy).
  assert (Hf : f <> []) by (intros ->; destruct Hx).
  destruct (py_min_ok f Hf) as (mn & E1 & I1 & M1). destruct (py_max_ok f Hf) as (mx & E2 & I2 & M2).
  assert (Hlt : mn < mx).
  { destruct (Rlt_le_dec mn mx) as [L|G]; [exact L|]. exfalso. apply Hxy.
    pose proof (M1 x Hx). pose proof (M2 x Hx). pose proof (M1 y Hy). pose proof (M2 y Hy). lra. }
  assert (HR : forall z, In z f -> 0 <= (z - mn) / (mx - mn) <= 1).
  { intros z Hz. pose proof (M1 z Hz). pose proof (M2 z Hz). split.
    - apply Rmult_le_pos; [lra|]. left. apply Rinv_0_lt_compat. lra.
    - apply (Rmult_le_reg_r (mx - mn)); [lra|]. unfold Rdiv. rewrite Rmult_assoc, Rinv_l by lra. lra. }
  exists (map (fun x => (x - mn) / (mx - mn)) f), mn, mx. split.
  - unfold scale_features. rewrite E1, E2. cbn [bind]. destruct (Req_EM_T (mx - mn) 0); [lra|].
    destruct (Req_EM_T 1 0); [lra|]. f_equal. rewrite map_map. apply map_ext_in. intros z Hz.
    apply clip_id, HR, Hz.
  - split; [exact I1|]. split; [exact I2|]. split; [intros z Hz; split; [apply M1|apply M2]; exact Hz|].
    split; [reflexivity|]. split.
    + intros z Hz. apply in_map_iff in Hz as (u & <- & Hu). apply HR, Hu.
    + split; apply in_map_iff; [exists mn|exists mx]; (split; [|assumption]); field_simplify; lra.
Qed.

Lemma scale_given f mn mx cap : mn < mx -> 0 < cap ->
  exists g, scale_features f (Some mn) (Some mx) cap = Ok g /\ length g = length f /\
    forall i, (i < length f)%nat ->
      nth i g 0 = Rmax 0 (Rmin cap ((nth i f 0 - mn) / (mx - mn))).
Proof.
  intros H Hc. set (h := fun x => clip cap ((x - mn) / (mx - mn))). exists (map h f). split.
  - unfold scale_features. cbn [bind]. destruct (Req_EM_T (mx - mn) 0); [lra|].
    destruct (Req_EM_T cap 0); [lra|]. rewrite map_map. reflexivity.
  - rewrite map_length. split; [reflexivity|]. intros i Hi.
    rewrite nth_indep with (d' := h 0) by (rewrite map_length; lia). rewrite map_nth. unfold h. apply clip_alt. lra.
Qed.

Lemma scale_constant f c cap : f <> [] -> (forall x, In x f -> x = c) ->
  scale_features f None None cap = Ok f.
Proof.
  intros Hf H. destruct (py_min_ok f Hf) as (mn & E1 & I1 & M1). destruct (py_max_ok f Hf) as (mx & E2 & I2 & M2).
  unfold scale_features. rewrite E1, E2. cbn [bind]. rewrite (H mn I1), (H mx I2).
  destruct (Req_EM_T (c - c) 0); [reflexivity|lra].
Qed.

Lemma scale_val_spec val lo hi cap : lo < hi -> 0 < cap ->
  scale_val val (lo, hi) cap = Ok (Rmax 0 (Rmin cap ((val - lo) / (hi - lo)))).
Proof.
  intros H Hc. unfold scale_val. cbn [fst snd]. rewrite py_div_ok by lra. cbn [bind].
  destruct (Req_EM_T cap 0); [lra|]. f_equal. apply clip_alt. lra.
Qed.

Lemma alpha_init alpha decay : calc_alpha_init alpha decay = (if Rle_dec decay 0 then alpha else alpha * decay) /\
  (0 < decay -> calc_alpha_init alpha decay / (decay + 0) = alpha).
Proof.
  split; [reflexivity|]. intros H. unfold calc_alpha_init. destruct (Rle_dec decay 0); [lra|]. field. lra.
Qed.

(** ** approx *)
Lemma approx_loop l1 : forall l2 m, length l1 = length l2 ->
  all_approx_loop l1 l2 m = true <-> Forall2 (fun x y => Rabs (x - y) <= m * spacing1) l1 l2.
Proof.
  induction l1 as [|x l1 IH]; intros [|y l2] m HL; try discriminate HL; cbn [all_approx_loop].
  - split; [constructor|reflexivity].
  - injection HL as HL. unfold helpers_approx at 1. cbn [Z.eqb].
    destruct (Rle_dec (Rabs (x - y)) (m * spacing1)) as [L|N].
    + rewrite IH by exact HL. split; [now constructor|]. intros H. now inversion H.
    + split; [discriminate|]. intros H. inversion H; subst. contradiction.
Qed.

Lemma all_approx_spec l1 l2 m :
  all_approx l1 l2 m = true <-> Forall2 (fun x y => Rabs (x - y) <= m * spacing1) l1 l2.
Proof.
  unfold all_approx. destruct (Nat.eqb_spec (length l1) (length l2)) as [E|N].
  - apply approx_loop, E.
  - split; [discriminate|]. intros H. exfalso. apply N. induction H; cbn; lia.
Qed.

Lemma approx_precision num1 num2 m p : p <> 0%Z ->
  helpers_approx num1 num2 m p = true <-> Rabs (num1 - num2) < powerRZ 10 (- p).
Proof.
  intros Hp. unfold helpers_approx. destruct (Z.eqb_spec p 0); [contradiction|].
  destruct (Rlt_dec _ _); split; auto; discriminate.
Qed.

(** utilities.approx with a precision of two digits accepts numbers that differ by ninety *)
Lemma approx_wrong_sign : exists num1 num2 p, (0 < p)%Z /\
  powerRZ 10 (- p) < Rabs (num1 - num2) /\ utilities_approx num1 num2 4 p = true.
Proof.
  exists 100, 10, 2%Z. split; [lia|]. replace (100 - 10) with 90 by lra. rewrite Rabs_right by lra.
  split.
  - unfold powerRZ. cbn [Z.opp]. change (Pos.to_nat 2) with 2%nat. cbn [pow].
    apply (Rmult_lt_reg_r (10 * (10 * 1))); [lra|]. rewrite Rinv_l by lra. lra.
  - unfold utilities_approx. cbn [Z.eqb]. replace (100 - 10) with 90 by lra. rewrite Rabs_right by lra.
    destruct (Rle_dec 90 (powerRZ 10 2)) as [|N]; [reflexivity|]. exfalso. apply N.
    unfold powerRZ. change (Pos.to_nat 2) with 2%nat. cbn [pow]. lra.
Qed.
