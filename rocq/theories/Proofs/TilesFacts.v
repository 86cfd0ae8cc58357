(** Facts about tile coding. *)
From Coq Require Import Lra Permutation.
From Verif Require Import Model.Tiles Spec.Tiles Proofs.PyFacts Proofs.RealFacts Proofs.SignalFacts.
Open Scope R_scope.

(** ** floor *)
Lemma floor_bounds x : IZR (floor x) <= x < IZR (floor x) + 1.
Proof. unfold floor. destruct (base_Int_part x). lra. Qed.

Lemma floor_unique x z : IZR z <= x < IZR z + 1 -> floor x = z.
Proof.
  intros H. pose proof (floor_bounds x).
  assert (IZR z < IZR (floor x + 1)) by (rewrite plus_IZR; lra).
  assert (IZR (floor x) < IZR (z + 1)) by (rewrite plus_IZR; lra).
  apply lt_IZR in H1. apply lt_IZR in H2. lia.
Qed.

Lemma floor_IZR z : floor (IZR z) = z.
Proof. apply floor_unique. lra. Qed.

Lemma ceil_IZR z : ceil (IZR z) = z.
Proof. unfold ceil. rewrite <- opp_IZR. change (Int_part (IZR (- z))) with (floor (IZR (- z))). rewrite floor_IZR. lia. Qed.

Lemma floor_le x z : x < IZR z + 1 -> (floor x <= z)%Z.
Proof.
  intros H. pose proof (floor_bounds x).
  assert (IZR (floor x) < IZR (z + 1)) by (rewrite plus_IZR; lra). apply lt_IZR in H1. lia.
Qed.
Lemma floor_ge x z : IZR z <= x -> (z <= floor x)%Z.
Proof.
  intros H. pose proof (floor_bounds x).
  assert (IZR z < IZR (floor x + 1)) by (rewrite plus_IZR; lra). apply lt_IZR in H1. lia.
Qed.

(** ** mixed radix *)
Fixpoint radix (B : Z) (cs : list Z) : Z :=
  match cs with [] => 0 | c :: cs' => c + B * radix B cs' end%Z.

Lemma Zsum_from l : forall a, fold_left Z.add l a = (a + Zsum l)%Z.
Proof.
  unfold Zsum. induction l as [|x l IH]; intros a; cbn [fold_left]; [lia|]. rewrite IH, (IH (0 + x)%Z). lia.
Qed.
Lemma Zsum_cons x l : Zsum (x :: l) = (x + Zsum l)%Z.
Proof. unfold Zsum at 1. cbn [fold_left]. rewrite Zsum_from. lia. Qed.

Lemma bases_radix B : forall cs s,
  Zsum (map (fun p => fst p * snd p)%Z (combine cs (map (fun i => B ^ Z.of_nat i)%Z (seq s (length cs))))) =
  (B ^ Z.of_nat s * radix B cs)%Z.
Proof.
  induction cs as [|c cs IH]; intros s; cbn [length seq map combine radix].
  - unfold Zsum. cbn [fold_left]. lia.
  - rewrite Zsum_cons, IH. cbn [fst snd]. rewrite Nat2Z.inj_succ, Z.pow_succ_r by lia. ring.
Qed.

Lemma radix_range B cs : (0 < B)%Z -> (forall c, In c cs -> 0 <= c < B)%Z ->
  (0 <= radix B cs < B ^ Z.of_nat (length cs))%Z.
Proof.
  intros HB. induction cs as [|c cs IH]; intros H; cbn [radix length]; [cbn; lia|].
  rewrite Nat2Z.inj_succ, Z.pow_succ_r by lia. specialize (H c (or_introl eq_refl)) as Hc.
  specialize (IH (fun c' Hc' => H c' (or_intror Hc'))). nia.
Qed.

Lemma radix_inj B : (0 < B)%Z -> forall cs ds, length cs = length ds ->
  (forall c, In c cs -> 0 <= c < B)%Z -> (forall c, In c ds -> 0 <= c < B)%Z ->
  radix B cs = radix B ds -> cs = ds.
Proof.
  intros HB. induction cs as [|c cs IH]; intros [|d ds] HL H1 H2 E; try discriminate HL; [reflexivity|].
  cbn [radix] in E. pose proof (H1 c (or_introl eq_refl)) as Hc. pose proof (H2 d (or_introl eq_refl)) as Hd.
  assert (radix B cs = radix B ds) by nia. assert (c = d) by nia. subst d. f_equal.
  apply IH; auto; [intros; apply H1; now right|intros; apply H2; now right].
Qed.

Lemma radix_big B : (0 < B)%Z -> forall m, (B ^ Z.of_nat (S m) <= radix B (repeat B (S m)))%Z.
Proof.
  intros HB. induction m as [|m IH].
  - cbn [repeat radix]. rewrite Z.pow_1_r. lia.
  - change (repeat B (S (S m))) with (B :: repeat B (S m)). cbn [radix].
    rewrite Nat2Z.inj_succ, Z.pow_succ_r by lia. nia.
Qed.

(** ** the constructor *)
Lemma default_inverse n : (0 < n)%nat -> 1 / (/ INR n) = IZR (Z.of_nat n).
Proof. intros H. rewrite <- INR_IZR_INZ. assert (0 < INR n) by (now apply lt_0_INR). field. lra. Qed.

Lemma fits_default n : (0 < n)%nat -> fits n None.
Proof.
  intros H. assert (0 < INR n) by (now apply lt_0_INR). unfold fits. cbn [the_width].
  split; [now apply Rinv_0_lt_compat|]. rewrite default_inverse by exact H. rewrite floor_IZR.
  assert (0 < / INR n) by (now apply Rinv_0_lt_compat). lra.
Qed.

Lemma range3_mult base p n : (0 < p)%Z ->
  py_range3 base (p * Z.of_nat n + base)%Z p = Ok (map (fun k => (base + Z.of_nat k * p)%Z) (seq 0 n)).
Proof.
  intros Hp. unfold py_range3. destruct (Z.eqb_spec p 0); [lia|]. destruct (Z.ltb_spec 0 p); [|lia].
  replace (p * Z.of_nat n + base - base + p - 1)%Z with (Z.of_nat n * p + (p - 1))%Z by lia.
  rewrite Z.div_add_l, Z.div_small by lia. rewrite Z.add_0_r, Nat2Z.id. reflexivity.
Qed.

Lemma arange_width w n : w <> 0 -> (0 < n)%nat ->
  np_arange w (w / IZR (Z.of_nat n)) = map (fun k => INR k * (w / INR n)) (seq 0 n).
Proof.
  intros Hw Hn. assert (0 < INR n) by (now apply lt_0_INR). unfold np_arange. rewrite <- INR_IZR_INZ.
  replace (w / (w / INR n)) with (IZR (Z.of_nat n)).
  - rewrite ceil_IZR, Nat2Z.id. reflexivity.
  - rewrite <- INR_IZR_INZ. field. split; lra.
Qed.

Record described (n d : nat) (w : R) (bias : bool) (t : TileCoder) : Prop := {
  ds_n : tc_num_tilings t = n;
  ds_d : tc_dimensionality t = d;
  ds_b : tc_bias t = bias;
  ds_active : tc_num_active t = (Z.of_nat n + if bias then 1 else 0)%Z;
  ds_tpa : tc_tiles_per_axis t = (floor (1 / w) + 1)%Z;
  ds_w : tc_tile_width t = w;
  ds_ptt : tc_tiles_per_tiling t = (tc_tiles_per_axis t ^ Z.of_nat d)%Z;
  ds_bits : tc_num_bits t = (tc_tiles_per_tiling t * Z.of_nat n)%Z;
  ds_features : tc_num_features t = (tc_num_bits t + if bias then 1 else 0)%Z;
  ds_bi : tc_bias_index t = (if bias then Some 0%Z else None);
  ds_tb : tc_tiling_bases t =
    map (fun k => ((if bias then 1 else 0) + Z.of_nat k * tc_tiles_per_tiling t)%Z) (seq 0 n);
  ds_off : tc_offsets t = map (fun k => INR k * (w / INR n)) (seq 0 n);
  ds_bases : tc_tile_bases t = map (fun i => (tc_tiles_per_axis t ^ Z.of_nat i)%Z) (seq 0 d) }.

Lemma init_described n d width bias : (0 < n)%nat -> 0 < the_width n width ->
  exists t, TileCoder_init n d width bias = Ok t /\ described n d (the_width n width) bias t.
Proof.
  intros Hn Hw. assert (HIn : 0 < INR n) by (now apply lt_0_INR).
  set (w := the_width n width) in *.
  assert (HF : (0 <= floor (1 / w))%Z).
  { apply floor_ge. left. unfold Rdiv. rewrite Rmult_1_l. now apply Rinv_0_lt_compat. }
  unfold TileCoder_init.
  replace (match width with
           | None => do w <- py_div 1 (IZR (Z.of_nat n)); Ok ((Z.of_nat n + 1)%Z, w)
           | Some w => do q <- py_div 1 w; Ok ((floor q + 1)%Z, w)
           end) with (Ok ((floor (1 / w) + 1)%Z, w)).
  2:{ unfold w. destruct width as [w'|]; cbn [the_width] in *.
      - rewrite py_div_ok by (apply Rgt_not_eq; exact Hw). reflexivity.
      - rewrite <- INR_IZR_INZ, py_div_ok by lra. cbn [bind]. rewrite default_inverse, floor_IZR by exact Hn.
        apply f_equal, f_equal2; [reflexivity|]. unfold Rdiv. rewrite Rmult_1_l. reflexivity. }
  cbn [bind]. set (B := (floor (1 / w) + 1)%Z). assert (HB : (0 < B)%Z) by (unfold B; lia).
  set (p := (B ^ Z.of_nat d)%Z). assert (Hp : (0 < p)%Z) by (unfold p; apply Z.pow_pos_nonneg; lia).
  replace (if bias then (p * Z.of_nat n + 1)%Z else (p * Z.of_nat n)%Z)
    with (p * Z.of_nat n + (if bias then 1 else 0))%Z by (destruct bias; lia).
  rewrite range3_mult by exact Hp. cbn [bind].
  rewrite py_div_ok by (rewrite <- INR_IZR_INZ; lra). cbn [bind].
  eexists. split; [reflexivity|]. constructor; cbn; try reflexivity.
  - destruct bias; lia.
  - rewrite arange_width by (exact Hn || lra). reflexivity.
Qed.

Lemma init_inv n d width bias t : (0 < n)%nat -> 0 < the_width n width ->
  TileCoder_init n d width bias = Ok t -> described n d (the_width n width) bias t.
Proof.
  intros Hn Hw E. destruct (init_described n d width bias Hn Hw) as (t' & E' & H).
  rewrite E in E'. now injection E' as ->.
Qed.

(** ** the active tiles *)
Definition coords (n : nat) (w : R) (k : nat) (signal : list R) : list Z :=
  map (fun x => floor ((x + INR k * (w / INR n)) / w)) signal.

Section coder.
  Variables (n d : nat) (w : R) (bias : bool) (t : TileCoder).
  Hypothesis Hn : (0 < n)%nat.
  Hypothesis Hw : 0 < w.
  Hypothesis D : described n d w bias t.

  Notation B := (tc_tiles_per_axis t).
  Notation p := (tc_tiles_per_tiling t).
  Notation b0 := (if bias then 1%Z else 0%Z).

  Lemma inr_pos : 0 < INR n. Proof. now apply lt_0_INR. Qed.

  Lemma axis_pos : (0 < B)%Z.
  Proof.
    rewrite (ds_tpa _ _ _ _ _ D).
    assert (0 <= floor (1 / w))%Z; [|lia]. apply floor_ge. left. unfold Rdiv. rewrite Rmult_1_l. now apply Rinv_0_lt_compat.
  Qed.
  Lemma tiling_pos : (0 < p)%Z.
  Proof. rewrite (ds_ptt _ _ _ _ _ D). apply Z.pow_pos_nonneg; [apply axis_pos|lia]. Qed.

  Lemma tile_bit signal k : length signal = d ->
    active_tile_bit signal (INR k * (w / INR n)) (tc_tile_width t) (tc_tile_bases t) =
    Ok (radix B (coords n w k signal)).
  Proof.
    intros HL. unfold active_tile_bit, np_mul, active_tile_coords.
    rewrite (ds_bases _ _ _ _ _ D), !map_length, seq_length, HL, Nat.eqb_refl. cbn [bind].
    rewrite (ds_w _ _ _ _ _ D). f_equal.
    change (map (fun x => floor_div (x + INR k * (w / INR n)) w) signal) with (coords n w k signal).
    replace d with (length (coords n w k signal)) by (unfold coords; now rewrite map_length).
    rewrite bases_radix. change (Z.of_nat 0) with 0%Z. rewrite Z.pow_0_r, Z.mul_1_l. reflexivity.
  Qed.

  Definition tile (signal : list R) (k : nat) : Z :=
    (b0 + Z.of_nat k * p + radix B (coords n w k signal))%Z.

  Lemma tiles_none signal : length signal = d ->
    active_tiling_bits signal (tc_offsets t) (tc_tiling_bases t) (tc_tile_width t) (tc_tile_bases t) None =
    Ok (map (tile signal) (seq 0 n)).
  Proof.
    intros HL. unfold active_tiling_bits. cbn [bind].
    assert (HTL : length (tc_tiling_bases t) = n) by (now rewrite (ds_tb _ _ _ _ _ D), map_length, seq_length).
    rewrite HTL. rewrite (mapM_ok _ (tile signal)); [reflexivity|].
    intros k Hk. apply in_seq in Hk.
    rewrite (get_nth (tc_offsets t) k 0) by (rewrite (ds_off _ _ _ _ _ D), map_length, seq_length; lia). cbn [bind].
    rewrite (ds_off _ _ _ _ _ D), nth_map_seq by lia. rewrite tile_bit by exact HL. cbn [bind].
    rewrite (get_nth (tc_tiling_bases t) k 0%Z) by lia. cbn [bind].
    rewrite (ds_tb _ _ _ _ _ D), nth_map_seq by lia. f_equal. unfold tile. lia.
  Qed.

  Lemma active_tiles signal : length signal = d ->
    get_active_tiles t signal = Ok (map (tile signal) (seq 0 n) ++ if bias then [0%Z] else []).
  Proof.
    intros HL. unfold get_active_tiles. rewrite tiles_none by exact HL. cbn [bind].
    rewrite (ds_bi _ _ _ _ _ D), (ds_b _ _ _ _ _ D). destruct bias; [reflexivity|now rewrite app_nil_r].
  Qed.

  Lemma coder_tiles signal : length signal = d ->
    get_coder t signal = Ok ((if bias then [0%Z] else []) ++ map (tile signal) (seq 0 n)).
  Proof.
    intros HL. unfold get_coder. pose proof (tiles_none signal HL) as E. rewrite (ds_bi _ _ _ _ _ D).
    destruct bias eqn:EB; [|exact E].
    unfold active_tiling_bits in *. cbn [bind] in E.
    assert (HTL : length (tc_tiling_bases t) = n) by (now rewrite (ds_tb _ _ _ _ _ D), map_length, seq_length).
    pose proof (get_nth (tc_tiling_bases t) 0 0%Z ltac:(lia)) as E0. change (Z.of_nat 0) with 0%Z in E0.
    rewrite E0. cbn [bind].
    replace (nth 0 (tc_tiling_bases t) 0%Z) with 1%Z.
    2:{ rewrite (ds_tb _ _ _ _ _ D), nth_map_seq by lia. lia. }
    cbn [Z.eqb]. cbn [bind]. apply bind_ok in E as (tiles & E & E2). rewrite E. cbn [bind].
    cbn [app] in *. congruence.
  Qed.

  Lemma coord_bounds k x : (k < n)%nat -> 0 <= x <= 1 ->
    1 / w - IZR (floor (1 / w)) < / INR n ->
    (0 <= floor ((x + INR k * (w / INR n)) / w) < B)%Z.
  Proof.
    intros Hk Hx Hf. pose proof inr_pos as HIn. rewrite (ds_tpa _ _ _ _ _ D).
    assert (HI : 0 < / INR n) by (now apply Rinv_0_lt_compat).
    assert (HWi : 0 < / w) by (now apply Rinv_0_lt_compat).
    assert (HK : 0 <= INR k <= INR n - 1).
    { split; [apply pos_INR|]. assert (INR (S k) <= INR n) by (apply le_INR; lia). rewrite S_INR in H. lra. }
    replace ((x + INR k * (w / INR n)) / w) with (x * / w + INR k * / INR n) by (field; split; lra).
    assert (INR k * / INR n <= 1 - / INR n).
    { replace (1 - / INR n) with ((INR n - 1) * / INR n) by (field; lra). apply Rmult_le_compat_r; lra. }
    assert (0 <= INR k * / INR n) by (apply Rmult_le_pos; lra).
    assert (x * / w <= 1 / w) by (unfold Rdiv; apply Rmult_le_compat_r; lra).
    assert (0 <= x * / w) by (apply Rmult_le_pos; lra). split.
    - apply floor_ge. lra.
    - assert (floor (x * / w + INR k * / INR n) <= floor (1 / w))%Z; [|lia]. apply floor_le. lra.
  Qed.

  Lemma tile_range signal k : length signal = d -> (k < n)%nat -> (forall x, In x signal -> 0 <= x <= 1) ->
    1 / w - IZR (floor (1 / w)) < / INR n ->
    (b0 + Z.of_nat k * p <= tile signal k < b0 + (Z.of_nat k + 1) * p)%Z.
  Proof.
    intros HL Hk Hx Hf. unfold tile.
    assert (HR : (0 <= radix B (coords n w k signal) < p)%Z); [|lia].
    rewrite (ds_ptt _ _ _ _ _ D). 
    replace d with (length (coords n w k signal)) by (unfold coords; now rewrite map_length).
    apply radix_range; [apply axis_pos|]. intros c Hc. unfold coords in Hc.
    apply in_map_iff in Hc as (x & <- & Hin). apply coord_bounds; auto.
  Qed.

  Lemma tiles_nodup signal : length signal = d -> (forall x, In x signal -> 0 <= x <= 1) ->
    1 / w - IZR (floor (1 / w)) < / INR n ->
    NoDup (map (tile signal) (seq 0 n) ++ if bias then [0%Z] else []) /\
    (forall i, In i (map (tile signal) (seq 0 n) ++ if bias then [0%Z] else []) ->
       0 <= i < tc_num_features t)%Z.
  Proof.
    intros HL Hx Hf. pose proof tiling_pos as Hp.
    assert (HT : forall k, (k < n)%nat -> (b0 + Z.of_nat k * p <= tile signal k < b0 + (Z.of_nat k + 1) * p)%Z)
      by (intros; now apply tile_range).
    assert (HN : NoDup (map (tile signal) (seq 0 n))).
    { apply NoDup_nth with (d := 0%Z). rewrite map_length, seq_length. intros i j Hi Hj.
      rewrite !nth_map_seq by lia. intros E. pose proof (HT i Hi). pose proof (HT j Hj).
      assert (Z.of_nat i = Z.of_nat j) by nia. lia. }
    assert (HF : tc_num_features t = (b0 + p * Z.of_nat n)%Z).
    { rewrite (ds_features _ _ _ _ _ D), (ds_bits _ _ _ _ _ D). lia. }
    assert (HIn : forall i, In i (map (tile signal) (seq 0 n)) -> (b0 <= i < tc_num_features t)%Z).
    { intros i Hi. apply in_map_iff in Hi as (k & <- & Hk). apply in_seq in Hk.
      specialize (HT k ltac:(lia)). rewrite HF. nia. }
    destruct bias.
    - split.
      + apply (Permutation_NoDup (Permutation_cons_append _ _)). constructor; [|exact HN].
        intros H0. apply HIn in H0. lia.
      + intros i Hi. apply in_app_iff in Hi as [Hi|[<-|[]]]; [apply HIn in Hi; lia|]. rewrite HF. nia.
    - rewrite app_nil_r. split; [exact HN|exact HIn].
  Qed.

  Lemma same_tile s1 s2 k : length s1 = d -> length s2 = d -> (k < n)%nat ->
    (forall x, In x s1 -> 0 <= x <= 1) -> (forall x, In x s2 -> 0 <= x <= 1) ->
    1 / w - IZR (floor (1 / w)) < / INR n ->
    tile s1 k = tile s2 k <-> coords n w k s1 = coords n w k s2.
  Proof.
    intros H1 H2 Hk X1 X2 Hf. unfold tile. split; [|congruence]. intros E.
    apply (radix_inj B axis_pos); [unfold coords; rewrite !map_length; lia| | |lia].
    - intros c Hc. apply in_map_iff in Hc as (x & <- & Hx). apply coord_bounds; auto.
    - intros c Hc. apply in_map_iff in Hc as (x & <- & Hx). apply coord_bounds; auto.
  Qed.

  (** the last tiling overflows at the far corner when the condition on the width fails *)
  Lemma overflow : (1 <= d)%nat -> / INR n <= 1 / w - IZR (floor (1 / w)) ->
    (tc_num_features t <= tile (repeat 1%R d) (n - 1))%Z.
  Proof.
    intros Hd Hf. pose proof inr_pos as HIn. pose proof axis_pos as HB.
    assert (HC : coords n w (n - 1) (repeat 1%R d) = repeat B d).
    { unfold coords. assert (HB1 : floor ((1 + INR (n - 1) * (w / INR n)) / w) = B).
      { rewrite (ds_tpa _ _ _ _ _ D). apply floor_unique. rewrite plus_IZR.
        pose proof (floor_bounds (1 / w)). rewrite minus_INR by lia. cbn [INR].
        replace ((1 + (INR n - 1) * (w / INR n)) / w) with (1 / w + (1 - / INR n)) by (field; split; lra).
        assert (0 < / INR n) by (now apply Rinv_0_lt_compat). lra. }
      clear -HB1. induction d as [|m IH]; cbn [repeat map]; [reflexivity|]. now rewrite HB1, IH. }
    unfold tile. rewrite HC. destruct d as [|m] eqn:Ed; [lia|].
    pose proof (radix_big B HB m) as HR.
    rewrite (ds_features _ _ _ _ _ D), (ds_bits _ _ _ _ _ D).
    assert (Hp : p = (B ^ Z.of_nat (S m))%Z) by (rewrite (ds_ptt _ _ _ _ _ D); reflexivity).
    rewrite <- Hp in HR. replace (Z.of_nat (n - 1)) with (Z.of_nat n - 1)%Z by lia. nia.
  Qed.
End coder.

(** ** for the property *)
Lemma tiles_ok n d width bias t signal : (0 < n)%nat -> fits n width ->
  TileCoder_init n d width bias = Ok t -> length signal = d -> (forall x, In x signal -> 0 <= x <= 1) ->
  exists ind, get_active_tiles t signal = Ok ind /\
    Z.of_nat (length ind) = tc_num_active t /\ NoDup ind /\
    (forall i, In i ind -> 0 <= i < tc_num_features t)%Z /\
    forall k, (k < n)%nat ->
      let base := if bias then 1%Z else 0%Z in
      (base + Z.of_nat k * tc_tiles_per_tiling t <= nth k ind 0 <
       base + (Z.of_nat k + 1) * tc_tiles_per_tiling t)%Z.
Proof.
  intros Hn [Hw Hf] E HL Hx. pose proof (init_inv _ _ _ _ _ Hn Hw E) as D.
  eexists. split; [apply (active_tiles _ _ _ _ _ Hn D signal HL)|].
  destruct (tiles_nodup _ _ _ _ _ Hn Hw D signal HL Hx Hf) as [H1 H2].
  split; [|split; [exact H1|split; [exact H2|]]].
  - rewrite app_length, map_length, seq_length, (ds_active _ _ _ _ _ D). destruct bias; cbn; lia.
  - intros k Hk. cbn zeta. rewrite app_nth1 by (rewrite map_length, seq_length; lia).
    rewrite nth_map_seq by exact Hk. apply (tile_range _ _ _ _ _ Hn Hw D); auto.
Qed.

Lemma range_exact n d w bias t : (0 < n)%nat -> (0 < d)%nat -> 0 < w ->
  TileCoder_init n d (Some w) bias = Ok t ->
  (forall signal ind, length signal = d -> (forall x, In x signal -> 0 <= x <= 1) ->
     get_active_tiles t signal = Ok ind -> forall i, In i ind -> (i < tc_num_features t)%Z) <->
  1 / w - IZR (floor (1 / w)) < / INR n.
Proof.
  intros Hn Hd Hw E. pose proof (init_inv n d (Some w) bias t Hn Hw E) as D. cbn [the_width] in D. split.
  - intros H. destruct (Rlt_le_dec (1 / w - IZR (floor (1 / w))) (/ INR n)) as [L|G]; [exact L|exfalso].
    pose proof (overflow _ _ _ _ _ Hn Hw D Hd G) as HO.
    assert (HL : length (repeat 1%R d) = d) by apply repeat_length.
    assert (HX : forall x, In x (repeat 1%R d) -> 0 <= x <= 1) by (intros x Hx; apply repeat_spec in Hx; lra).
    pose proof (H _ _ HL HX (active_tiles _ _ _ _ _ Hn D _ HL) (tile n w bias t (repeat 1%R d) (n - 1))) as HI.
    assert (tile n w bias t (repeat 1%R d) (n - 1) < tc_num_features t)%Z; [|lia].
    apply HI. apply in_app_iff. left. apply in_map. apply in_seq. lia.
  - intros Hf signal ind HL Hx EI i Hi.
    rewrite (active_tiles _ _ _ _ _ Hn D signal HL) in EI. injection EI as <-.
    now apply (proj2 (tiles_nodup _ _ _ _ _ Hn Hw D signal HL Hx Hf) i).
Qed.

Lemma same_tile_iff n d width bias t s1 s2 i1 i2 k : (0 < n)%nat -> fits n width ->
  TileCoder_init n d width bias = Ok t -> length s1 = d -> length s2 = d ->
  (forall x, In x s1 -> 0 <= x <= 1) -> (forall x, In x s2 -> 0 <= x <= 1) ->
  get_active_tiles t s1 = Ok i1 -> get_active_tiles t s2 = Ok i2 -> (k < n)%nat ->
  let w := the_width n width in
  nth k i1 0%Z = nth k i2 0%Z <->
  forall j, (j < d)%nat ->
    floor (nth j s1 0 / w + INR k / INR n) = floor (nth j s2 0 / w + INR k / INR n).
Proof.
  intros Hn [Hw Hf] E H1 H2 X1 X2 E1 E2 Hk w. pose proof (init_inv _ _ _ _ _ Hn Hw E) as D.
  rewrite (active_tiles _ _ _ _ _ Hn D s1 H1) in E1. rewrite (active_tiles _ _ _ _ _ Hn D s2 H2) in E2.
  injection E1 as <-. injection E2 as <-.
  rewrite !app_nth1 by (rewrite map_length, seq_length; lia). rewrite !nth_map_seq by exact Hk.
  rewrite (same_tile _ _ _ _ _ Hn Hw D s1 s2 k H1 H2 Hk X1 X2 Hf). unfold coords. fold w.
  assert (HIn : 0 < INR n) by (now apply lt_0_INR). fold w in Hw.
  assert (HC : forall x, floor ((x + INR k * (w / INR n)) / w) = floor (x / w + INR k / INR n)).
  { intros x. f_equal. field. split; lra. }
  rewrite !(map_ext _ _ HC). set (f := fun x => floor (x / w + INR k / INR n)). split.
  - intros EM j Hj. change (f (nth j s1 0) = f (nth j s2 0)).
    rewrite <- !(map_nth f). now rewrite EM.
  - intros HJ. apply nth_ext with (d := f 0) (d' := f 0); rewrite !map_length; [lia|].
    intros j Hj. rewrite !map_nth. apply HJ. lia.
Qed.

(** points in the same tile are less than a tile width apart *)
Lemma resolution w a x y : 0 < w -> floor (x / w + a) = floor (y / w + a) -> Rabs (x - y) < w.
Proof.
  intros Hw E. pose proof (floor_bounds (x / w + a)). pose proof (floor_bounds (y / w + a)). rewrite E in H.
  assert (HD : Rabs (x / w - y / w) < 1) by (apply Rabs_def1; lra).
  replace (x - y) with ((x / w - y / w) * w) by (field; lra). rewrite Rabs_mult, (Rabs_right w) by lra.
  replace w with (1 * w) at 4 by lra. now apply Rmult_lt_compat_r.
Qed.

Lemma coder_order n d width bias t signal : (0 < n)%nat -> 0 < the_width n width ->
  TileCoder_init n d width bias = Ok t -> length signal = d ->
  exists tiles, length tiles = n /\
    get_active_tiles t signal = Ok (tiles ++ if bias then [0%Z] else []) /\
    get_coder t signal = Ok ((if bias then [0%Z] else []) ++ tiles) /\
    forall k, (k < n)%nat -> exists c, get_active_tile t signal (Z.of_nat k) = Ok c /\
      nth k tiles 0%Z = (c + Z.of_nat k * tc_tiles_per_tiling t + if bias then 1 else 0)%Z.
Proof.
  intros Hn Hw E HL. pose proof (init_inv _ _ _ _ _ Hn Hw E) as D.
  exists (map (tile n (the_width n width) bias t signal) (seq 0 n)).
  split; [now rewrite map_length, seq_length|].
  split; [apply (active_tiles _ _ _ _ _ Hn D signal HL)|]. split; [apply (coder_tiles _ _ _ _ _ Hn D signal HL)|].
  intros k Hk. unfold get_active_tile.
  rewrite (get_nth (tc_offsets t) k 0) by (rewrite (ds_off _ _ _ _ _ D), map_length, seq_length; lia). cbn [bind].
  rewrite (ds_off _ _ _ _ _ D), nth_map_seq by lia. rewrite (tile_bit _ _ _ _ _ D signal k HL).
  eexists. split; [reflexivity|]. rewrite nth_map_seq by exact Hk. unfold tile. lia.
Qed.

Lemma pairs_spec dims i j : In (i, j) (get_pairs dims) <-> (i < j < dims)%nat.
Proof.
  unfold get_pairs. rewrite in_flat_map. split.
  - intros (i' & Hi & Hj). apply in_map_iff in Hj as (j' & E & Hj). injection E as -> ->.
    apply in_seq in Hi, Hj. lia.
  - intros H. exists i. split; [apply in_seq; lia|]. apply in_map_iff. exists j. split; [reflexivity|]. apply in_seq. lia.
Qed.

Lemma NoDup_app_intro {A} (l1 l2 : list A) : NoDup l1 -> NoDup l2 ->
  (forall x, In x l1 -> In x l2 -> False) -> NoDup (l1 ++ l2).
Proof.
  intros H1 H2 HD. induction H1 as [|x l1 N H1 IH]; cbn; [exact H2|]. constructor.
  - rewrite in_app_iff. intros [H|H]; [contradiction|]. apply (HD x); [now left|exact H].
  - apply IH. intros y Hy1 Hy2. apply (HD y); [now right|exact Hy2].
Qed.

Lemma pairs_nodup dims : NoDup (get_pairs dims).
Proof.
  unfold get_pairs. generalize (seq_NoDup dims 0). generalize (seq 0 dims). intros l.
  induction l as [|i l IH]; intros H; cbn; [constructor|]. inversion H as [|? ? N H']; subst.
  apply NoDup_app_intro.
  - apply FinFun.Injective_map_NoDup; [intros a b E; now injection E|apply seq_NoDup].
  - apply IH, H'.
  - intros x Hx Hy. apply in_map_iff in Hx as (j & <- & _). apply in_flat_map in Hy as (i' & Hi' & Hy).
    apply in_map_iff in Hy as (j' & E & _). injection E as -> _. contradiction.
Qed.

(** a width of 0.6 with two tilings *)
Lemma tiles_overflow : exists n w t signal ind i, (0 < n)%nat /\ 0 < w < 1 /\
  TileCoder_init n 1 (Some w) true = Ok t /\ signal = [1] /\
  get_active_tiles t signal = Ok ind /\ In i ind /\ (tc_num_features t <= i)%Z.
Proof.
  assert (Hn : (0 < 2)%nat) by lia. assert (Hw : 0 < the_width 2 (Some (3 / 5))) by (cbn; lra).
  destruct (init_described 2 1 (Some (3 / 5)) true Hn Hw) as (t & E & D). cbn [the_width] in D, Hw.
  exists 2%nat, (3 / 5), t, [1]. eexists. exists (tile 2 (3 / 5) true t [1] 1).
  split; [exact Hn|]. split; [lra|]. split; [exact E|]. split; [reflexivity|].
  split; [apply (active_tiles _ _ _ _ _ Hn D); reflexivity|]. split; [right; now left|].
  apply (overflow _ _ _ _ _ Hn Hw D); [lia|].
  assert (HF : floor (1 / (3 / 5)) = 1%Z) by (apply floor_unique; lra). rewrite HF. cbn [INR]. lra.
Qed.

Lemma pairs_all dims : NoDup (get_pairs dims) /\
  forall i j, In (i, j) (get_pairs dims) <-> (i < j < dims)%nat.
Proof. split; [apply pairs_nodup|intros; apply pairs_spec]. Qed.
