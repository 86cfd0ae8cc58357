(** bin_data. *)
From Coq Require Import Lra Lia.
From Verif Require Import Model.NumUtils Spec.NumSpec.
From Verif Require Import Proofs.RealFacts Proofs.PyFacts.
Open Scope R_scope.

(** The piece of [data] from i to j. *)
Definition piece (data : list R) (i j : Z) : list R := firstn (Z.to_nat (j - i)) (skipn (Z.to_nat i) data).

(** Cutting at an increasing list of places. *)
Fixpoint pieces (data : list R) (i : Z) (js : list Z) : list (list R) :=
  match js with [] => [] | j :: js' => piece data i j :: pieces data j js' end.

Fixpoint increasing (i : Z) (js : list Z) : Prop :=
  match js with [] => True | j :: js' => (i < j)%Z /\ increasing j js' end.

Lemma piece_length data i j : (0 <= i <= j)%Z -> (j <= Z.of_nat (length data))%Z -> length (piece data i j) = Z.to_nat (j - i).
Proof. intros Hi Hj. unfold piece. rewrite firstn_length, skipn_length. lia. Qed.

Lemma increasing_last js : forall i, increasing i js -> (i <= last js i)%Z.
Proof.
  induction js as [|j js IH]; intros i H; [cbn; lia|]. destruct H as [H1 H2]. specialize (IH j H2).
  assert (E : last (j :: js) i = last js j). { clear. revert j i. induction js as [|k js IH]; intros j i; [reflexivity|]. cbn [last] in *. rewrite (IH k i), (IH k j). destruct js; reflexivity. }
  rewrite E. lia.
Qed.
Lemma last_cons js : forall i j : Z, last (j :: js) i = last js j.
Proof. induction js as [|k js IH]; intros i j; [reflexivity|]. change (last (j :: k :: js) i) with (last (k :: js) i). now rewrite !IH. Qed.

Lemma skipn_skip {X} (l : list X) : forall a b, skipn a (skipn b l) = skipn (b + a) l.
Proof. induction l as [|x l IH]; intros a [|b]; cbn; rewrite ?skipn_nil; auto. Qed.

Lemma pieces_concat data js : forall i, (0 <= i)%Z -> increasing i js -> last js i = Z.of_nat (length data) -> concat (pieces data i js) = skipn (Z.to_nat i) data.
Proof.
  induction js as [|j js IH]; intros i Hi H HL.
  - cbn in *. rewrite skipn_all2 by lia. reflexivity.
  - destruct H as [H1 H2]. rewrite last_cons in HL. cbn [pieces concat]. rewrite IH by (try assumption; lia).
    unfold piece. replace (Z.to_nat j) with (Z.to_nat i + Z.to_nat (j - i))%nat by lia. rewrite <- skipn_skip. apply firstn_skipn.
Qed.

Lemma pieces_lengths data js : forall i, (0 <= i)%Z -> increasing i js -> (last js i <= Z.of_nat (length data))%Z ->
  map (fun p => Z.of_nat (length p)) (pieces data i js) = diff (i :: js).
Proof.
  induction js as [|j js IH]; intros i Hi H HL; [reflexivity|]. destruct H as [H1 H2]. rewrite last_cons in HL.
  cbn [pieces map diff]. rewrite (IH j ltac:(lia) H2 HL). f_equal. pose proof (increasing_last js j H2). rewrite piece_length by lia. lia.
Qed.

(** The sums that reduceat gives. *)
Lemma segments_pieces data js : forall i, (0 <= i)%Z -> js <> [] -> increasing i js -> last js i = Z.of_nat (length data) ->
  segments data (removelast (i :: js)) = map Rsum (pieces data i js).
Proof.
  induction js as [|j js IH]; intros i Hi Hne H HL; [congruence|]. destruct H as [H1 H2]. rewrite last_cons in HL.
  destruct js as [|k js].
  - cbn in HL. cbn [removelast segments pieces map]. unfold piece. f_equal. rewrite firstn_all2; [reflexivity|]. rewrite skipn_length. lia.
  - change (removelast (i :: j :: k :: js)) with (i :: removelast (j :: k :: js)). cbn [pieces map].
    specialize (IH j ltac:(lia) ltac:(discriminate) H2 HL). cbn [pieces map] in IH. rewrite <- IH.
    change (removelast (j :: k :: js)) with (j :: removelast (k :: js)). cbn [segments]. destruct (Z.ltb_spec i j); [|lia]. reflexivity.
Qed.

Lemma in_bounds_ok data js : forall i, (0 <= i)%Z -> increasing i js -> last js i = Z.of_nat (length data) -> in_bounds data (removelast (i :: js)) = true.
Proof.
  induction js as [|j js IH]; intros i Hi H HL; [reflexivity|]. pose proof H as [H1 H2]. rewrite last_cons in HL.
  change (removelast (i :: j :: js)) with (i :: removelast (j :: js)). unfold in_bounds in *. cbn [forallb].
  rewrite IH by (try assumption; lia). pose proof (increasing_last js j H2).
  destruct (Z.leb_spec 0 i); [|lia]. destruct (Z.ltb_spec i (Z.of_nat (length data))); [reflexivity|lia].
Qed.


(** ** The cuts *)
Section cuts.
  Variables (cut : Z -> Z -> Z) (n : Z).
  Hypothesis Hc : cuts_ok n (cut n).

  Lemma cuts_list : (1 <= n)%Z -> exists js, bin_slices cut n = Ok (0%Z :: js) /\ js = map (fun i => cut n (Z.of_nat i)) (seq 1 (Z.to_nat n)).
  Proof.
    intros Hn. unfold bin_slices. destruct (Z.ltb_spec (n + 1) 0); [lia|]. replace (Z.to_nat (n + 1)) with (S (Z.to_nat n)) by lia.
    cbn [seq map]. change (Z.of_nat 0) with 0%Z. rewrite (proj1 Hc). eauto.
  Qed.

  Lemma cut_strict i : (1 <= n <= 50)%Z -> (0 <= i < n)%Z -> (cut n i < cut n (i + 1))%Z.
  Proof.
    intros Hn Hi. destruct Hc as (H0 & H1 & _ & Hb).
    assert (D : (100 * i / n + 2 <= 100 * (i + 1) / n)%Z).
    { replace (100 * (i + 1))%Z with (100 * i + 100)%Z by lia.
      apply Z.div_le_lower_bound; [lia|]. pose proof (Z.mul_div_le (100 * i) n ltac:(lia)). lia. }
    destruct (Z.eq_dec i 0) as [->|Hi0].
    - rewrite H0. change (0 + 1)%Z with 1%Z in *. destruct (Z.eq_dec n 1) as [->|Hn1]; [rewrite H1; lia|]. specialize (Hb 1%Z ltac:(lia)).
      change (100 * 0 / n)%Z with (0 / n)%Z in D. rewrite Z.div_0_l in D by lia. lia.
    - specialize (Hb i ltac:(lia)) as Hbi. destruct (Z.eq_dec (i + 1) n) as [E|E].
      + rewrite E, H1. assert (100 * i / n < 100)%Z by (apply Z.div_lt_upper_bound; lia). lia.
      + specialize (Hb (i + 1)%Z ltac:(lia)). lia.
  Qed.

  Lemma cuts_increasing : (1 <= n <= 50)%Z -> forall k i, (Z.of_nat i + Z.of_nat k <= n)%Z ->
    increasing (cut n (Z.of_nat i)) (map (fun i => cut n (Z.of_nat i)) (seq (S i) k)).
  Proof.
    intros Hn. induction k as [|k IH]; intros i Hi; [exact I|]. cbn [seq map increasing]. split.
    - rewrite Nat2Z.inj_succ. apply cut_strict; lia.
    - apply IH. lia.
  Qed.

  Lemma cuts_last (d : Z) : forall k i, (1 <= k)%nat -> last (map (fun i => cut n (Z.of_nat i)) (seq i k)) d = cut n (Z.of_nat (i + k - 1)).
  Proof.
    induction k as [|k IH]; intros i Hk; [lia|]. destruct k as [|k].
    - cbn. f_equal. lia.
    - transitivity (last (map (fun i => cut n (Z.of_nat i)) (seq (S i) (S k))) d); [reflexivity|]. rewrite (IH (S i) ltac:(lia)). do 2 f_equal. lia.
  Qed.
End cuts.

(** With 100 values and at most 50 bins: means of consecutive pieces, which make up the data. *)
Lemma bins_ok cut n data : cuts_ok n (cut n) -> (1 <= n <= 50)%Z -> length data = 100%nat ->
  exists ps, bin_data cut data n = Ok (map (fun p => Some (mean p)) ps) /\ concat ps = data /\ length ps = Z.to_nat n /\
    Forall (fun p => p <> []) ps /\ Forall (fun p => Z.abs (Z.of_nat (length p) * n - 100) <= 2 * n)%Z ps.
Proof.
  intros Hc Hn Hd. destruct (cuts_list cut n Hc ltac:(lia)) as (js & Es & Ejs).
  assert (Hinc : increasing 0 js).
  { rewrite Ejs. pose proof (cuts_increasing cut n Hc Hn (Z.to_nat n) 0 ltac:(lia)) as G. change (Z.of_nat 0) with 0%Z in G. now rewrite (proj1 Hc) in G. }
  assert (Hlast : last js 0%Z = Z.of_nat (length data)).
  { rewrite Ejs, cuts_last by lia. replace (Z.of_nat (1 + Z.to_nat n - 1)) with n by lia. rewrite (proj1 (proj2 Hc)), Hd. reflexivity. }
  assert (Hne : js <> []) by (rewrite Ejs; destruct (Z.to_nat n) eqn:E; [lia|discriminate]).
  exists (pieces data 0 js).
  assert (Hlen : map (fun p => Z.of_nat (length p)) (pieces data 0 js) = diff (0%Z :: js)) by (apply pieces_lengths; [lia|exact Hinc|lia]).
  assert (Hpos : Forall (fun p => p <> []) (pieces data 0 js)).
  { assert (G : forall js i, (0 <= i)%Z -> increasing i js -> (last js i <= Z.of_nat (length data))%Z -> Forall (fun p => p <> []) (pieces data i js)).
    { clear. induction js as [|j js IH]; intros i Hi H HL; [constructor|]. destruct H as [H1 H2]. rewrite last_cons in HL. constructor.
      - intros E. pose proof (increasing_last js j H2). pose proof (piece_length data i j ltac:(lia) ltac:(lia)) as G. rewrite E in G. cbn in G. lia.
      - apply IH; [lia|exact H2|exact HL]. }
    apply G; [lia|exact Hinc|lia]. }
  split; [|split; [|split; [|split]]].
  - unfold bin_data. rewrite Es. cbn [bind]. unfold reduceat. rewrite (in_bounds_ok data js 0 ltac:(lia) Hinc Hlast). cbn [bind].
    rewrite (segments_pieces data js 0 ltac:(lia) Hne Hinc Hlast), <- Hlen. f_equal.
    clear -Hpos. induction (pieces data 0 js) as [|p ps IH]; [reflexivity|]. inversion Hpos as [|x y Hp Hps]; subst. cbn [map combine fst snd]. rewrite (IH Hps). f_equal.
    unfold over, mean. destruct (Z.eqb_spec (Z.of_nat (length p)) 0); [destruct p; [congruence|cbn in *; lia]|reflexivity].
  - rewrite (pieces_concat data js 0 ltac:(lia) Hinc Hlast). reflexivity.
  - transitivity (length js); [|rewrite Ejs, map_length, seq_length; reflexivity]. clear. generalize 0%Z. induction js as [|j js IH]; intros i; [reflexivity|]. cbn. now rewrite IH.
  - exact Hpos.
  - assert (G : Forall (fun c => Z.abs (c * n - 100) <= 2 * n)%Z (diff (0%Z :: js))).
    { rewrite Ejs. assert (E0 : 0%Z = cut n (Z.of_nat 0)) by (symmetry; apply Hc). rewrite E0 at 1.
      assert (Hb : forall i, (0 <= i <= n)%Z -> (100 * i - 2 * n < n * cut n i <= 100 * i)%Z).
      { intros i Hi. destruct Hc as (H0 & H1 & _ & Hb). destruct (Z.eq_dec i 0) as [->|]; [rewrite H0; lia|]. destruct (Z.eq_dec i n) as [->|]; [rewrite H1; lia|].
        specialize (Hb i ltac:(lia)). pose proof (Z.mul_div_le (100 * i) n ltac:(lia)). pose proof (Z.mul_succ_div_gt (100 * i) n ltac:(lia)). nia. }
      assert (R : forall k i, (Z.of_nat i + Z.of_nat k <= n)%Z ->
        Forall (fun c => Z.abs (c * n - 100) <= 2 * n)%Z (diff (cut n (Z.of_nat i) :: map (fun i => cut n (Z.of_nat i)) (seq (S i) k)))).
      { induction k as [|k IH]; intros i Hi; [constructor|]. cbn [seq map diff]. constructor.
        - pose proof (Hb (Z.of_nat i) ltac:(lia)). pose proof (Hb (Z.of_nat (S i)) ltac:(lia)). rewrite Nat2Z.inj_succ in *. nia.
        - apply (IH (S i)). lia. }
      apply (R (Z.to_nat n) 0%nat). lia. }
    rewrite <- Hlen in G. rewrite Forall_forall in G. apply Forall_forall. intros q Hq. apply G. apply in_map_iff. exists q. split; [reflexivity|exact Hq].
Qed.

(** ** Other numbers of values *)
Lemma bins_one cut data : cuts_ok 1 (cut 1%Z) -> data <> [] -> bin_data cut data 1 = Ok [Some (Rsum data / 100)].
Proof.
  intros Hc Hd. destruct (cuts_list cut 1 Hc ltac:(lia)) as (js & Es & Ejs). change (map (fun i => cut 1%Z (Z.of_nat i)) (seq 1 (Z.to_nat 1))) with [cut 1%Z 1%Z] in Ejs. rewrite (proj1 (proj2 Hc)) in Ejs. subst js.
  unfold bin_data. rewrite Es. cbn [bind removelast]. unfold reduceat, in_bounds. cbn [forallb].
  destruct (Z.leb_spec 0 0); [|lia]. destruct (Z.ltb_spec 0 (Z.of_nat (length data))); [|destruct data; [congruence|cbn in *; lia]]. cbn. reflexivity.
Qed.

Lemma Rsum_ones k : Rsum (repeat 1 k) = INR k.
Proof. induction k as [|k IH]; [reflexivity|]. cbn [repeat]. rewrite Rsum_cons, IH, S_INR. lra. Qed.

Lemma bins_long cut : cuts_ok 1 (cut 1%Z) -> bin_data cut (repeat 1 200) 1 = Ok [Some 2].
Proof.
  intros Hc. rewrite bins_one by (try exact Hc; discriminate). rewrite Rsum_ones. do 3 f_equal. rewrite INR_IZR_INZ. cbn. lra.
Qed.

Lemma bins_none cut data : bin_data cut data 0 = Ok [] /\ bin_data cut data (-1) = Ok [].
Proof. split; reflexivity. Qed.
Lemma bins_negative cut data n : (n < -1)%Z -> bin_data cut data n = Err ValueError.
Proof. intros H. unfold bin_data, bin_slices. destruct (Z.ltb_spec (n + 1) 0); [reflexivity|lia]. Qed.

Lemma floor_cuts n : (1 <= n)%Z -> cuts_ok n (fun i => 100 * i / n)%Z.
Proof.
  intros Hn. repeat apply conj.
  - rewrite Z.mul_0_r. apply Z.div_0_l. lia.
  - apply Z.div_mul. lia.
  - intros i Hi. apply Z.div_le_mono; lia.
  - intros i Hi. lia.
Qed.

Lemma bins_short cut n data : cuts_ok n (cut n) -> (1 <= n)%Z -> (Z.of_nat (length data) <= cut n (n - 1))%Z -> bin_data cut data n = Err IndexError.
Proof.
  intros Hc Hn Hd. destruct (cuts_list cut n Hc ltac:(lia)) as (js & Es & Ejs). unfold bin_data. rewrite Es. cbn [bind]. unfold reduceat.
  assert (In (cut n (n - 1)%Z) (removelast (0%Z :: js))).
  { assert (E : removelast (0%Z :: js) = map (fun i => cut n (Z.of_nat i)) (seq 0 (Z.to_nat n))).
    { rewrite <- (proj1 Hc) at 1. rewrite Ejs. change (cut n 0%Z) with ((fun i => cut n (Z.of_nat i)) 0%nat).
      change (removelast (map (fun i => cut n (Z.of_nat i)) (seq 0 (S (Z.to_nat n)))) = map (fun i => cut n (Z.of_nat i)) (seq 0 (Z.to_nat n))).
      rewrite seq_S, map_app. cbn [map]. apply removelast_last. }
    rewrite E. apply in_map_iff. exists (Z.to_nat (n - 1)). split; [f_equal; lia|apply in_seq; lia]. }
  destruct (in_bounds data (removelast (0%Z :: js))) eqn:E; [|reflexivity]. unfold in_bounds in E. rewrite forallb_forall in E.
  specialize (E _ H). apply andb_true_iff in E. destruct E as [_ E]. apply Z.ltb_lt in E. lia.
Qed.

(** More than 100 bins: some have no values. *)
Lemma bins_many cut n data : cuts_ok n (cut n) -> (100 < n)%Z -> length data = 100%nat -> exists vs, bin_data cut data n = Ok vs /\ In None vs.
Proof.
  intros Hc Hn Hd. destruct (cuts_list cut n Hc ltac:(lia)) as (js & Es & Ejs).
  assert (Hr : forall i, (0 <= i < n)%Z -> (0 <= cut n i < 100)%Z).
  { intros i Hi. destruct Hc as (H0 & H1 & Hmono & Hb).
    assert (L : (0 <= cut n i)%Z).
    { rewrite <- H0. destruct (Z_of_nat_complete i ltac:(lia)) as [k ->]. clear -Hmono Hi. induction k as [|k IH]; [cbn; lia|].
      rewrite Nat2Z.inj_succ in *. specialize (IH ltac:(lia)). specialize (Hmono (Z.of_nat k) ltac:(lia)). unfold Z.succ in *. lia. }
    destruct (Z.eq_dec i 0) as [->|]; [rewrite H0; lia|]. specialize (Hb i ltac:(lia)).
    assert (100 * i / n < 100)%Z by (apply Z.div_lt_upper_bound; lia). lia. }
  assert (Hflat : exists i, (0 <= i < n)%Z /\ cut n (i + 1)%Z = cut n i).
  { assert (D : forall k, (Z.of_nat k <= n)%Z -> (exists i, (0 <= i < Z.of_nat k)%Z /\ cut n (i + 1)%Z = cut n i) \/ (Z.of_nat k <= cut n (Z.of_nat k))%Z).
    { destruct Hc as (H0 & H1 & Hmono & Hb). induction k as [|k IH]; intros Hk; [right; change (Z.of_nat 0) with 0%Z; rewrite H0; lia|].
      destruct (IH ltac:(lia)) as [(i & Hi & E)|G]; [left; exists i; split; [lia|exact E]|].
      specialize (Hmono (Z.of_nat k) ltac:(lia)). destruct (Z.eq_dec (cut n (Z.of_nat k + 1)%Z) (cut n (Z.of_nat k))) as [E|E].
      - left. exists (Z.of_nat k). split; [lia|exact E].
      - right. rewrite Nat2Z.inj_succ. unfold Z.succ. lia. }
    destruct (D (Z.to_nat n) ltac:(lia)) as [(i & Hi & E)|G]; [exists i; split; [lia|exact E]|].
    rewrite Z2Nat.id in G by lia. rewrite (proj1 (proj2 Hc)) in G. lia. }
  destruct Hflat as (i & Hi & Ei).
  assert (Eall : (0%Z :: js) = map (fun i => cut n (Z.of_nat i)) (seq 0 (S (Z.to_nat n)))) by (rewrite Ejs; cbn [seq map]; change (Z.of_nat 0) with 0%Z; now rewrite (proj1 Hc)).
  assert (Erem : removelast (0%Z :: js) = map (fun i => cut n (Z.of_nat i)) (seq 0 (Z.to_nat n))).
  { rewrite Eall, seq_S, map_app. cbn [map]. apply removelast_last. }
  unfold bin_data. rewrite Es. cbn [bind]. unfold reduceat.
  assert (B : in_bounds data (removelast (0%Z :: js)) = true).
  { unfold in_bounds. rewrite forallb_forall, Erem. intros x Hx. apply in_map_iff in Hx. destruct Hx as (k & <- & Hk). apply in_seq in Hk.
    specialize (Hr (Z.of_nat k) ltac:(lia)). apply andb_true_iff. split; [apply Z.leb_le|apply Z.ltb_lt]; lia. }
  rewrite B. cbn [bind]. eexists. split; [reflexivity|]. rewrite Erem, Eall.
  assert (Ls : forall ix, length (segments data ix) = length ix).
  { clear. induction ix as [|a [|b ix] IH]; [reflexivity|reflexivity|]. cbn [segments length] in *. now rewrite IH. }
  assert (Ld : forall l x, In x (combine (segments data (map (fun i => cut n (Z.of_nat i)) (seq 0 (Z.to_nat n)))) l) -> In (over (fst x) (snd x)) (map (fun p => over (fst p) (snd p)) (combine (segments data (map (fun i => cut n (Z.of_nat i)) (seq 0 (Z.to_nat n)))) l))) by (intros; now apply in_map with (f := fun p => over (fst p) (snd p))).
  assert (Nd : forall k j, (j < k)%nat -> nth_error (diff (map (fun i => cut n (Z.of_nat i)) (seq 0 (S k)))) j = Some (cut n (Z.of_nat (S j)) - cut n (Z.of_nat j))%Z).
  { clear. intros k. assert (G : forall k a j, (j < k)%nat -> nth_error (diff (map (fun i => cut n (Z.of_nat i)) (seq a (S k)))) j = Some (cut n (Z.of_nat (a + S j)) - cut n (Z.of_nat (a + j)))%Z).
    { clear. induction k as [|k IH]; intros a j Hj; [lia|].
      change (diff (map (fun i => cut n (Z.of_nat i)) (seq a (S (S k))))) with ((cut n (Z.of_nat (S a)) - cut n (Z.of_nat a))%Z :: diff (map (fun i => cut n (Z.of_nat i)) (seq (S a) (S k)))). destruct j as [|j].
      - cbn [nth_error]. replace (a + 1)%nat with (S a) by lia. now rewrite Nat.add_0_r.
      - cbn [nth_error]. rewrite (IH (S a) j ltac:(lia)). replace (S a + S j)%nat with (a + S (S j))%nat by lia. now replace (S a + j)%nat with (a + S j)%nat by lia. }
    intros j Hj. exact (G k 0%nat j Hj). }
  specialize (Nd (Z.to_nat n) (Z.to_nat i) ltac:(lia)).
  destruct (nth_error (segments data (map (fun i => cut n (Z.of_nat i)) (seq 0 (Z.to_nat n)))) (Z.to_nat i)) as [v|] eqn:Ev.
  2: { apply nth_error_None in Ev. rewrite Ls, map_length, seq_length in Ev. lia. }
  assert (E0 : (cut n (Z.of_nat (S (Z.to_nat i))) - cut n (Z.of_nat (Z.to_nat i)))%Z = 0%Z).
  { rewrite Nat2Z.inj_succ, Z2Nat.id by lia. unfold Z.succ. lia. }
  rewrite E0 in Nd. change None with (over (fst (v, 0%Z)) (snd (v, 0%Z))). apply Ld.
  assert (C : forall {X Y} (l : list X) (l' : list Y) j x y, nth_error l j = Some x -> nth_error l' j = Some y -> In (x, y) (combine l l')).
  { clear. intros X Y. induction l as [|a l IH]; intros [|b l'] [|j] x y H1 H2; try discriminate; cbn in *; [left; congruence|right; eauto]. }
  eapply C; eassumption.
Qed.

Lemma bins_none_negative cut data : bin_data cut data 0 = Ok [] /\ forall n, (n < -1)%Z -> bin_data cut data n = Err ValueError.
Proof. split; [reflexivity|intros n; apply bins_negative]. Qed.
Lemma bin_index_raises signal bins : get_bin_index signal bins = Err NameError.
Proof. reflexivity. Qed.
