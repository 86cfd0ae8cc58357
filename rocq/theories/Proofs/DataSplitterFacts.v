(** Facts about DataSplitter. *)
From Coq Require Import Permutation Sorting.Sorted.
From Verif Require Import Model.DataSplitter Spec.DataSplitter Proofs.ParamsFacts.
Open Scope Z_scope.

Section splitter.
  Context {A Seed : Type}.
  Variable shuffle : Seed -> list Z -> list Z.

  Lemma no_math gap nsample seed (data : list A) :
    data_splitter shuffle false Half gap nsample seed data = Err NameError.
  Proof. reflexivity. Qed.

  Lemma no_math_sample gap nsample seed (data : list A) :
    exists e, data_splitter shuffle false Sample gap nsample seed data = Err e.
  Proof.
    unfold data_splitter. unfold Tiles.py_range3. destruct (_ =? 0); cbn [bind]; eauto.
  Qed.

  Lemma other gap nsample seed (data : list A) math :
    data_splitter shuffle math OtherSplit gap nsample seed data = Ok (data, data).
  Proof. reflexivity. Qed.

  Lemma half_parts gap nsample seed (data : list A) : exists tr te,
    data_splitter shuffle true Half gap nsample seed data = Ok (tr, te) /\ tr ++ te = data /\
    (length tr <= length te <= S (length tr))%nat.
  Proof.
    eexists _, _. split; [reflexivity|]. split; [apply firstn_skipn|].
    rewrite firstn_length, skipn_length.
    pose proof (Nat.div_mod (length data) 2 ltac:(lia)).
    pose proof (Nat.mod_upper_bound (length data) 2 ltac:(lia)). lia.
  Qed.

  Lemma ix_rows (data : list A) rows :
    Forall (fun i => 0 <= i < Z.of_nat (length data)) rows ->
    exists out, ix data rows = Ok out /\ rows_at data rows out.
  Proof.
    unfold ix, rows_at. induction 1 as [|i l Hi _ IH]; cbn [mapM].
    - exists []. split; [reflexivity|constructor].
    - destruct IH as [out [E F]]. destruct (Z.ltb_spec i 0); [lia|].
      destruct (nth_error data (Z.to_nat i)) as [x|] eqn:N.
      + cbn [bind]. rewrite E. cbn [bind]. exists (x :: out). split; [reflexivity|].
        constructor; [split; [lia|exact N]|exact F].
      + apply nth_error_None in N. lia.
  Qed.

  Lemma in_range i a b : In i (range a b) <-> a <= i < b.
  Proof.
    unfold range. rewrite in_map_iff. split.
    - intros [k [<- Hk]]. apply in_seq in Hk. lia.
    - intros H. exists (Z.to_nat (i - a)). split; [lia|]. apply in_seq. lia.
  Qed.
  Lemma range_nodup a b : NoDup (range a b).
  Proof.
    unfold range. apply FinFun.Injective_map_NoDup; [|apply seq_NoDup].
    intros x y. lia.
  Qed.
  Lemma range_length a b : length (range a b) = Z.to_nat (b - a).
  Proof. unfold range. now rewrite map_length, seq_length. Qed.

  Lemma nodup_app (u v : list Z) : NoDup (u ++ v) -> NoDup u /\ NoDup v.
  Proof.
    induction u as [|x u IH]; cbn; intros N; [split; [constructor|exact N]|].
    inversion N; subst. destruct (IH H2). split; [|assumption]. constructor; [|assumption].
    intros Hx. apply H1. apply in_app_iff. now left.
  Qed.

  (** starts that keep their distance *)
  Definition spaced (tot : Z) (l : list Z) : Prop :=
    NoDup l /\ forall a b, In a l -> In b l -> a <> b -> tot <= a - b \/ tot <= b - a.

  Lemma blocks_nodup nsample tot l : 0 <= nsample <= tot -> spaced tot l ->
    NoDup (flat_map (fun i => range i (i + nsample)) l).
  Proof.
    intros Ht [N S]. induction N as [|a l Ha N IH]; cbn [flat_map]; [constructor|].
    assert (I := IH (fun x y Hx Hy => S x y (or_intror Hx) (or_intror Hy))).
    revert I. generalize (range_nodup a (a + nsample)).
    assert (D : forall i, In i (range a (a + nsample)) ->
      ~ In i (flat_map (fun i => range i (i + nsample)) l)).
    { intros i Hi Hj. apply in_flat_map in Hj. destruct Hj as [b [Hb Hj]].
      apply in_range in Hi, Hj. destruct (Z.eq_dec a b) as [->|n]; [contradiction|].
      destruct (S a b (or_introl eq_refl) (or_intror Hb) n); lia. }
    revert D. generalize (range a (a + nsample)) as u.
    induction u as [|x u IHu]; cbn [app]; intros D Nu Nv; [exact Nv|].
    inversion Nu; subst. constructor.
    - rewrite in_app_iff. intros [E|E]; [contradiction|]. exact (D x (or_introl eq_refl) E).
    - apply IHu; auto. intros i Hi. apply D. now right.
  Qed.

  Lemma blocks_length nsample l : 0 <= nsample ->
    Z.of_nat (length (flat_map (fun i => range i (i + nsample)) l)) = nsample * Z.of_nat (length l).
  Proof.
    intros H. induction l as [|a l IH]; cbn [flat_map length]; [lia|].
    rewrite app_length, Nat2Z.inj_add, IH, range_length. lia.
  Qed.

  Lemma zle_total a b : (a <=? b) = true \/ (b <=? a) = true.
  Proof. destruct (Z.leb_spec a b), (Z.leb_spec b a); auto; lia. Qed.

  Lemma sort_strict l : NoDup l -> StronglySorted Z.lt (sort Z.leb l).
  Proof.
    intros N.
    assert (P : Permutation l (sort Z.leb l)) by apply sort_perm.
    assert (N' : NoDup (sort Z.leb l)) by (eapply Permutation_NoDup; eassumption).
    assert (S : StronglySorted (fun x y => Z.leb x y = true) (sort Z.leb l)).
    { apply sort_sorted.
      - exact zle_total.
      - intros a b c. rewrite !Z.leb_le. lia. }
    clear P N. induction S as [|a m S IH F]; [constructor|]. inversion N'; subst.
    constructor; [auto|]. apply Forall_forall. intros x Hx. rewrite Forall_forall in F.
    specialize (F x Hx). apply Z.leb_le in F. assert (x <> a) by (intros ->; contradiction). lia.
  Qed.

  Hypothesis shuffled : forall s l, Permutation l (shuffle s l).

  Lemma sample_parts gap nsample seed (data : list A) :
    0 <= gap -> 0 <= nsample -> 0 < gap + nsample ->
    exists tr te x y, data_splitter shuffle true Sample gap nsample seed data = Ok (x, y) /\
      rows_at data tr x /\ rows_at data te y /\
      StronglySorted Z.lt tr /\ StronglySorted Z.lt te /\
      (forall i j, In i tr -> In j te -> apart gap i j) /\
      (forall i, In i tr \/ In i te <-> in_block gap nsample (Z.of_nat (length data)) i) /\
      (length tr = length te \/ Z.of_nat (length tr) = Z.of_nat (length te) + nsample).
  Proof.
    intros Hg Hn Ht. set (tot := gap + nsample) in *. set (n := Z.of_nat (length data)).
    assert (E : exists firsts, Tiles.py_range3 gap (n - tot) tot = Ok firsts /\ spaced tot firsts /\
      forall a, In a firsts <-> exists k, 0 <= k /\ a = gap + k * tot /\ a < n - tot).
    { unfold Tiles.py_range3. destruct (Z.eqb_spec tot 0); [lia|]. destruct (Z.ltb_spec 0 tot); [|lia].
      eexists. split; [reflexivity|]. split.
      - split.
        + apply FinFun.Injective_map_NoDup; [|apply seq_NoDup]. intros x y Hxy. nia.
        + intros a b Ha Hb Hab. apply in_map_iff in Ha, Hb. destruct Ha as [k [<- _]].
          destruct Hb as [m [<- _]].
          destruct (Z.lt_trichotomy (Z.of_nat k) (Z.of_nat m)) as [L|[L|L]]; [|exfalso; apply Hab; now rewrite L|]; nia.
      - intros a. rewrite in_map_iff.
        assert (D : forall k, 0 <= k -> gap + k * tot < n - tot <->
          k < (n - tot - gap + tot - 1) / tot).
        { intros k Hk. set (m := n - tot - gap).
          split; intros L.
          - apply Z.lt_le_trans with (k + 1); [lia|]. apply Z.div_le_lower_bound; [lia|]. unfold m. nia.
          - assert (k + 1 <= (m + tot - 1) / tot) by lia.
            pose proof (Z.mul_div_le (m + tot - 1) tot ltac:(lia)). unfold m in *. nia. }
        split.
        + intros [k [<- Hk]]. apply in_seq in Hk. exists (Z.of_nat k). split; [lia|]. split; [lia|].
          apply D; [lia|]. lia.
        + intros [k [Hk [-> L]]]. exists (Z.to_nat k). split; [rewrite Z2Nat.id; lia|].
          apply in_seq. apply D in L; [|lia]. lia. }
    destruct E as [firsts [E [S M]]].
    set (sh := shuffle seed firsts). assert (P : Permutation firsts sh) by apply shuffled.
    assert (S' : spaced tot sh).
    { destruct S as [N D]. split; [eapply Permutation_NoDup; eassumption|].
      intros a b Ha Hb. apply D; eapply Permutation_in; try eassumption; now apply Permutation_sym. }
    assert (M' : forall a, In a sh <-> exists k, 0 <= k /\ a = gap + k * tot /\ a < n - tot).
    { intros a. rewrite <- M. split; intros H; eapply Permutation_in; try eassumption. now apply Permutation_sym. }
    set (half := (length sh / 2)%nat). clear P M S.
    assert (C : firstn half sh ++ skipn half sh = sh) by apply firstn_skipn.
    assert (Lf : length (firstn half sh) = half).
    { rewrite firstn_length. pose proof (Nat.div_mod (length sh) 2 ltac:(lia)). fold half in H. lia. }
    assert (Ls : length (skipn half sh) = half \/ length (skipn half sh) = S half).
    { rewrite skipn_length. pose proof (Nat.div_mod (length sh) 2 ltac:(lia)).
      pose proof (Nat.mod_upper_bound (length sh) 2 ltac:(lia)). fold half in H. lia. }
    set (fr := firstn half sh) in *. set (sk := skipn half sh) in *.
    assert (Iff : forall a, In a sh <-> In a fr \/ In a sk) by (intros a; rewrite <- C; apply in_app_iff).
    assert (Sf : spaced tot fr /\ spaced tot sk /\ forall a, In a fr -> ~ In a sk).
    { destruct S' as [N D]. rewrite <- C in N. repeat split.
      - apply (nodup_app _ _ N).
      - intros a b Ha Hb. apply D; apply Iff; auto.
      - apply (nodup_app _ _ N).
      - intros a b Ha Hb. apply D; apply Iff; auto.
      - intros a Ha Hb. apply in_split in Hb. destruct Hb as [l1 [l2 Hb]]. rewrite Hb in N.
        rewrite app_assoc in N. apply NoDup_remove_2 in N. apply N. rewrite !in_app_iff. auto. }
    destruct Sf as [Sf [Ss Dis]].
    set (tr := sort Z.leb (flat_map (fun i => range i (i + nsample)) sk)).
    set (te := sort Z.leb (flat_map (fun i => range i (i + nsample)) fr)).
    assert (Itr : forall i, In i tr <-> exists a, In a sk /\ a <= i < a + nsample).
    { intros i. unfold tr. rewrite sort_in, in_flat_map.
      split; intros [a [Ha Hi]]; exists a; split; auto; now apply in_range. }
    assert (Ite : forall i, In i te <-> exists a, In a fr /\ a <= i < a + nsample).
    { intros i. unfold te. rewrite sort_in, in_flat_map.
      split; intros [a [Ha Hi]]; exists a; split; auto; now apply in_range. }
    assert (B : forall l, (forall i, In i l -> exists a, In a sh /\ a <= i < a + nsample) ->
      Forall (fun i => 0 <= i < Z.of_nat (length data)) l).
    { intros l Hl. apply Forall_forall. intros i Hi. destruct (Hl i Hi) as [a [Ha Hi']].
      apply M' in Ha. destruct Ha as [k [Hk [-> L]]]. fold n. nia. }
    destruct (ix_rows data tr) as [x [Ex Rx]].
    { apply B. intros i Hi. apply Itr in Hi. destruct Hi as [a [Ha Hi]]. exists a. split; [apply Iff|]; auto. }
    destruct (ix_rows data te) as [y [Ey Ry]].
    { apply B. intros i Hi. apply Ite in Hi. destruct Hi as [a [Ha Hi]]. exists a. split; [apply Iff|]; auto. }
    exists tr, te, x, y. split.
    { unfold data_splitter. fold tot n. rewrite E. cbn [bind]. fold sh. fold half. fold fr sk tr te.
      rewrite Ex, Ey. reflexivity. }
    split; [exact Rx|]. split; [exact Ry|].
    split. { apply sort_strict. eapply blocks_nodup; [|exact Ss]. lia. }
    split. { apply sort_strict. eapply blocks_nodup; [|exact Sf]. lia. }
    split.
    { intros i j Hi Hj. apply Itr in Hi. apply Ite in Hj. destruct Hi as [a [Ha Hi]], Hj as [b [Hb Hj]].
      assert (a <> b) by (intros ->; exact (Dis b Hb Ha)).
      destruct S' as [_ D]. unfold apart.
      destruct (D a b (proj2 (Iff a) (or_intror Ha)) (proj2 (Iff b) (or_introl Hb)) H); lia. }
    split.
    { intros i. rewrite Itr, Ite. unfold in_block. fold tot. split.
      - intros H. assert (exists a, In a sh /\ a <= i < a + nsample) as [a [Ha Hi]].
        { destruct H as [[a [Ha Hi]]|[a [Ha Hi]]]; exists a; (split; [apply Iff|]; auto). }
        apply M' in Ha. destruct Ha as [k [Hk [-> L]]]. exists k. auto.
      - intros [k [Hk [L Hi]]].
        assert (Ha : In (gap + k * tot) sh) by (apply M'; exists k; auto).
        apply Iff in Ha. destruct Ha as [Ha|Ha]; [right|left]; exists (gap + k * tot); auto. }
    assert (Ltr : Z.of_nat (length tr) = nsample * Z.of_nat (length sk)).
    { unfold tr. rewrite <- (Permutation_length (sort_perm Z.leb _)). now apply blocks_length. }
    assert (Lte : Z.of_nat (length te) = nsample * Z.of_nat (length fr)).
    { unfold te. rewrite <- (Permutation_length (sort_perm Z.leb _)). now apply blocks_length. }
    destruct Ls as [Ls|Ls]; [left|right]; rewrite ?Ltr, ?Lte.
    - apply Nat2Z.inj. rewrite Ltr, Lte. f_equal. lia.
    - rewrite Ls, Lf. lia.
  Qed.
End splitter.
