(** Facts about FileEnvironment. *)
From Verif Require Import Proofs.StrFacts Model.FileEnvironment Spec.FileEnvironment.
Open Scope Z_scope.

Lemma nth_error_ext {A} : forall l m : list A, (forall i, nth_error l i = nth_error m i) -> l = m.
Proof.
  induction l as [|x l IH]; intros [|y m] H; [reflexivity|specialize (H O); discriminate H..|].
  f_equal; [specialize (H O); now injection H|]. apply IH. intros i. exact (H (S i)).
Qed.

Section facts.
  Context {Row : Type}.
  Variable read : pystr -> option Z -> result (list Row).
  Variable filters : list Row -> result (list Row).
  Variable protocol : list (pystr * Z).

  Notation FE := (FileEnv Row).
  Notation update := (fe_update read filters protocol).
  Notation updates := (fe_updates read filters protocol).
  Notation load := (next_block read filters).

  (** ** one block *)
  Lemma nth_repeat_block (d : list Row) : d <> [] -> forall r rem i, (rem < length d)%nat ->
    (i < r * length d + rem)%nat ->
    nth_error (List.concat (repeat d r) ++ firstn rem d) i = nth_error d (i mod length d).
  Proof.
    intros Hd. assert (L : length d <> O) by (destruct d; [contradiction|cbn; lia]).
    induction r as [|r IH]; intros rem i Hr Hi; cbn [repeat List.concat app].
    - cbn in Hi. rewrite Nat.mod_small by lia. clear -Hi.
      revert d i Hi. induction rem as [|rem IHr]; intros [|x d] [|i] Hi; cbn; try lia; auto.
      apply IHr. lia.
    - rewrite <- app_assoc. destruct (Nat.lt_ge_cases i (length d)) as [Hl|Hl].
      + rewrite nth_error_app1 by lia. now rewrite Nat.mod_small.
      + rewrite nth_error_app2 by lia. rewrite IH by (cbn in Hi; lia). f_equal.
        replace i with ((i - length d) + 1 * length d)%nat at 2 by lia. now rewrite Nat.mod_add.
  Qed.

  Lemma concat_repeat_length (d : list Row) r : length (List.concat (repeat d r)) = (r * length d)%nat.
  Proof. induction r; cbn; [reflexivity|]. now rewrite app_length, IHr. Qed.

  Definition span (m : Z) (d : list Row) : nat := if 0 <? m then Z.to_nat m else length d.

  Lemma looped_self (d : list Row) : looped d d (length d).
  Proof. split; [reflexivity|]. intros i Hi. now rewrite Nat.mod_small. Qed.

  Lemma block_spec (s : FE) d : fe_data s = Some d -> fe_max s <= 0 \/ d <> [] ->
    exists out, get_data_block s =
      Ok (Some out, {| fe_iter := fe_iter s; fe_dir := fe_dir s; fe_max := fe_max s;
            fe_step := fe_step s; fe_local := Z.of_nat (span (fe_max s) d); fe_data := Some d |}) /\
      looped d out (span (fe_max s) d).
  Proof.
    intros Hd Hm. unfold get_data_block, span. rewrite Hd.
    destruct (Z.leb_spec (fe_max s) 0) as [H|H]; cbn [orb].
    - destruct (Z.ltb_spec 0 (fe_max s)); [lia|]. exists d. split; [reflexivity|apply looped_self].
    - destruct (Z.ltb_spec 0 (fe_max s)); [|lia].
      destruct (Z.eqb_spec (fe_max s) (Z.of_nat (length d))) as [E|E].
      + exists d. rewrite E, Nat2Z.id. split; [reflexivity|apply looped_self].
      + assert (Hd' : d <> []) by (destruct Hm; [lia|assumption]).
        assert (L : (0 < length d)%nat) by (destruct d; [contradiction|cbn; lia]).
        destruct (Z.eqb_spec (Z.of_nat (length d)) 0) as [|_]; [lia|].
        set (n := Z.to_nat (fe_max s)). assert (En : fe_max s = Z.of_nat n) by lia.
        rewrite En. rewrite <- Nat2Z.inj_div, <- Nat2Z.inj_mod, !Nat2Z.id.
        eexists. split; [reflexivity|].
        pose proof (Nat.div_mod n (length d) ltac:(lia)).
        pose proof (Nat.mod_upper_bound n (length d) ltac:(lia)).
        split.
        * rewrite app_length, concat_repeat_length, firstn_length. lia.
        * intros i Hi. apply nth_repeat_block; [assumption|lia|lia].
  Qed.

  Lemma block_empty (s : FE) : fe_data s = Some [] -> 0 < fe_max s ->
    get_data_block s = Err ZeroDivisionError.
  Proof.
    intros Hd Hm. unfold get_data_block. rewrite Hd. cbn [length Z.of_nat].
    destruct (Z.leb_spec (fe_max s) 0); [lia|]. destruct (Z.eqb_spec (fe_max s) 0); [lia|]. reflexivity.
  Qed.

  Lemma looped_unique (src o1 o2 : list Row) n : looped src o1 n -> looped src o2 n -> o1 = o2.
  Proof.
    intros [L1 H1] [L2 H2]. apply nth_error_ext. intros i.
    destruct (Nat.lt_ge_cases i n) as [H|H].
    - now rewrite H1, H2.
    - assert (nth_error o1 i = None) as -> by (apply nth_error_None; lia).
      symmetry. apply nth_error_None. lia.
  Qed.

  (** ** loading *)
  Lemma load_named (d : pystr) (m : Z) rest (s : FE) raw src : d <> [] ->
    read d (if 0 <? m then Some m else None) = Ok raw -> filters raw = Ok src ->
    load (@cons (pystr * Z) (@pair pystr Z d m) rest) s = Ok {| fe_iter := Some rest; fe_dir := Some d; fe_max := m;
      fe_step := fe_step s; fe_local := 0; fe_data := Some src |}.
  Proof.
    intros Hd Hr Hf. cbn [next_block]. destruct d as [|c d]; [contradiction|]. cbn [bind fe_dir fe_max].
    rewrite Hr. cbn [bind]. rewrite Hf. reflexivity.
  Qed.

  (** ** all blocks at once *)
  Lemma chunks_spec : forall parts blocks, Forall2 (block_of read filters) parts blocks ->
    forall (s : FE) fuel, fe_iter s = Some parts -> keep_going s = false -> (length parts < fuel)%nat ->
    exists s', iter_chunks_fuel read filters protocol fuel s = Ok (map Some blocks ++ [None], s') /\
      fe_iter s' = None /\ fe_data s' = None /\ fe_step s' = -1 /\ fe_local s' = -1.
  Proof.
    induction 1 as [|[d m] blk parts blocks B F IH]; intros s fuel Hi Hk Hf.
    - destruct fuel as [|fuel]; [cbn in Hf; lia|]. cbn [iter_chunks_fuel]. rewrite Hi.
      unfold update_data_block. rewrite Hi, Hk. cbn [next_block bind get_data_block fe_reset fe_data].
      destruct fuel; cbn [iter_chunks_fuel fe_iter fe_reset bind map app]; eexists;
        (split; [reflexivity|]); repeat split.
    - destruct fuel as [|fuel]; [cbn in Hf; lia|]. cbn [iter_chunks_fuel]. rewrite Hi.
      unfold update_data_block. rewrite Hi, Hk.
      destruct B as (raw & src & Hd & Hr & Hfl & Hm & Hb). cbn [fst snd] in *.
      rewrite (load_named d m parts s raw src Hd Hr Hfl). cbn [bind].
      match goal with |- context[get_data_block ?x] => set (s1 := x) end.
      destruct (block_spec s1 src eq_refl Hm) as [out [E Ho]]. rewrite E. cbn [bind].
      assert (out = blk) as -> by (eapply looped_unique; [exact Ho|exact Hb]).
      match goal with |- context[iter_chunks_fuel _ _ _ _ ?x] => set (s2 := x) end.
      destruct (IH s2 fuel) as [s' [E' S']].
      + reflexivity.
      + unfold keep_going, s2, s1, span; cbn [fe_data fe_max fe_local].
        destruct (Z.eqb_spec m 0), (Z.ltb_spec 0 m); cbn [andb orb]; try (exfalso; lia); try reflexivity.
        all: rewrite ?orb_false_r; apply Z.ltb_ge; lia.
      + cbn in Hf. lia.
      + rewrite E'. cbn [bind map app]. eauto.
  Qed.

  Lemma all_data_spec blocks (s : FE) : protocol <> [] -> Forall2 (block_of read filters) protocol blocks ->
    exists s', get_all_data read filters protocol s = Ok (List.concat blocks, s') /\ fe_iter s' = None.
  Proof.
    intros Hp F. unfold get_all_data, iter_chunks.
    destruct (chunks_spec protocol blocks F (fe_start protocol s) (S (length protocol)) eq_refl eq_refl)
      as [s' [E [I _]]]; [lia|].
    rewrite E. cbn [bind]. rewrite flat_map_app. cbn [flat_map app]. rewrite !app_nil_r.
    assert (M : flat_map (fun c => match c with Some d => [d] | None => [] end) (map Some blocks) = blocks).
    { clear. induction blocks; cbn; [reflexivity|]. now f_equal. }
    rewrite M. destruct F; [contradiction|]. eauto.
  Qed.

  (** ** one row at a time *)
  Lemma updates_app a : forall b (s : FE),
    updates (a + b) s = do (xs, s1) <- updates a s; do (ys, s2) <- updates b s1; Ok (xs ++ ys, s2).
  Proof.
    induction a as [|a IH]; intros b s; cbn [fe_updates Nat.add bind].
    - destruct (updates b s) as [[ys s2]|]; reflexivity.
    - destruct (update s) as [[x s1]|]; cbn [bind]; [|reflexivity]. rewrite IH.
      destruct (updates a s1) as [[xs s2]|]; cbn [bind]; [|reflexivity].
      destruct (updates b s2) as [[ys s3]|]; reflexivity.
  Qed.

  Definition row_at (d : list Row) (j : nat) : option Row := nth_error d (j mod length d).

  Lemma get_row (s : FE) d j : fe_data s = Some d -> d <> [] -> fe_local s = Z.of_nat j ->
    fe_get_data s None = Ok (row_at d j).
  Proof.
    intros Hd Hne Hl. unfold fe_get_data. rewrite Hd, Hl.
    assert (L : (0 < length d)%nat) by (destruct d; [contradiction|cbn; lia]).
    assert (B := Nat.mod_upper_bound j (length d) ltac:(lia)).
    assert ((match d with [] => Err ZeroDivisionError | _ => Ok (Z.of_nat j mod Z.of_nat (length d)) end)
            = Ok (Z.of_nat (j mod length d))) as ->.
    { rewrite Nat2Z.inj_mod. destruct d; [contradiction|reflexivity]. }
    cbn [bind]. destruct (Z.ltb_spec (Z.of_nat (j mod length d)) 0); [lia|]. rewrite Nat2Z.id.
    unfold row_at. destruct (nth_error d (j mod length d)) eqn:E; [reflexivity|].
    apply nth_error_None in E. lia.
  Qed.

  Lemma keep_iff (s : FE) d j : fe_data s = Some d -> 0 <= fe_max s -> fe_local s = Z.of_nat j ->
    keep_going s = (j <? span (fe_max s) d)%nat.
  Proof.
    intros Hd Hm Hl. unfold keep_going, span. rewrite Hd, Hl.
    destruct (Z.eqb_spec (fe_max s) 0), (Z.ltb_spec 0 (fe_max s)); cbn [andb orb]; try lia.
    - rewrite orb_false_r. apply Bool.eq_true_iff_eq. rewrite Z.ltb_lt, Nat.ltb_lt. lia.
    - apply Bool.eq_true_iff_eq. rewrite Z.ltb_lt, Nat.ltb_lt. lia.
  Qed.

  (** within a block *)
  Lemma run_block d m rest dir : d <> [] -> 0 <= m ->
    forall n j (s : FE), (j + n = span m d)%nat ->
    fe_iter s = Some rest -> fe_dir s = dir -> fe_max s = m -> fe_data s = Some d ->
    fe_local s = Z.of_nat j ->
    exists s', updates n s = Ok (map (row_at d) (seq j n), s') /\
      fe_iter s' = Some rest /\ fe_dir s' = dir /\ fe_max s' = m /\ fe_data s' = Some d /\
      fe_local s' = Z.of_nat (span m d) /\ fe_step s' = fe_step s + Z.of_nat n.
  Proof.
    intros Hd Hm. induction n as [|n IH]; intros j s Hn Hi Hdir Hmax Hdata Hl.
    - exists s. replace j with (span m d) in * by lia. cbn. rewrite Z.add_0_r. auto 10.
    - cbn [fe_updates seq map]. unfold fe_update, update_data_block. rewrite Hi.
      rewrite (keep_iff s d j Hdata) by (auto; lia). rewrite Hmax.
      destruct (Nat.ltb_spec j (span m d)); [|lia]. cbn [bind].
      rewrite (get_row s d j) by auto. cbn [bind].
      match goal with |- context[updates n ?x] => set (s1 := x) end.
      destruct (IH (S j) s1) as (s' & E & R); try (unfold s1; cbn; auto; lia).
      rewrite E. cbn [bind]. exists s'. split; [reflexivity|].
      destruct R as (R1 & R2 & R3 & R4 & R5 & R6). repeat split; auto.
      rewrite R6. unfold s1. cbn [fe_step]. lia.
  Qed.

  (** between blocks: [rest] is still to come *)
  Definition ready (rest : list (pystr * Z)) (s : FE) : Prop :=
    (fe_iter s = Some rest /\ keep_going s = false) \/ (fe_iter s = None /\ rest = protocol).
  Definition steps_so_far (s : FE) : Z := match fe_iter s with Some _ => fe_step s | None => 0 end.

  Lemma ready_load rest (s : FE) : ready rest s -> exists s0,
    update_data_block read filters protocol s = load rest s0 /\ fe_step s0 = steps_so_far s.
  Proof.
    unfold update_data_block, steps_so_far. intros [[Hi Hk]|[Hi ->]]; rewrite Hi.
    - rewrite Hk. exists s. auto.
    - exists (fe_start protocol s). auto.
  Qed.

  Notation streamed := (streamed read filters).

  Lemma looped_rows d out n : looped d out n -> map Some out = map (row_at d) (seq 0 n).
  Proof.
    intros [L H]. apply nth_error_ext. intros i. rewrite !nth_error_map.
    destruct (Nat.lt_ge_cases i n) as [Hi|Hi].
    - specialize (H i Hi). fold (row_at d i) in H.
      assert (nth_error (seq 0 n) i = Some i) as ->.
      { rewrite nth_error_nth' with (d := O) by (rewrite seq_length; lia). now rewrite seq_nth. }
      cbn [option_map]. rewrite <- H. destruct (nth_error out i) eqn:E; [reflexivity|].
      apply nth_error_None in E. lia.
    - assert (nth_error out i = None) as -> by (apply nth_error_None; lia).
      assert (nth_error (seq 0 n) i = None) as -> by (apply nth_error_None; rewrite seq_length; lia).
      reflexivity.
  Qed.

  Lemma run_part part rest out (s : FE) : streamed part out -> ready (part :: rest) s ->
    exists s', updates (length out) s = Ok (map Some out, s') /\
      fe_iter s' = Some rest /\ keep_going s' = false /\
      fe_step s' = steps_so_far s + Z.of_nat (length out).
  Proof.
    unfold Spec.FileEnvironment.streamed. destruct part as [d m]. intros (Hm & Ho & raw & src & Hd & Hr & Hf & _ & Hb) R. cbn [fst snd] in *.
    fold (span m src) in Hb.
    assert (Hsrc : src <> []).
    { intros ->. destruct Hb as [L H]. destruct out as [|x out]; [contradiction|].
      specialize (H O). rewrite <- L in H. cbn in H. discriminate H. lia. }
    assert (Hlen := proj1 Hb). assert (Hn : length out = S (pred (length out))) by (destruct out; [contradiction|reflexivity]).
    destruct (ready_load _ _ R) as [s0 [E0 St]].
    rewrite (load_named d m rest s0 raw src Hd Hr Hf) in E0.
    rewrite Hn. cbn [fe_updates]. unfold fe_update. rewrite E0. cbn [bind].
    rewrite (get_row _ src 0%nat) by auto. cbn [bind].
    match goal with |- context[updates _ ?x] => set (s1 := x) end.
    destruct (run_block src m rest (Some d) Hsrc Hm (pred (length out)) 1 s1) as (s' & E & R1 & R2 & R3 & R4 & R5 & R6);
      try (unfold s1; cbn; auto; lia).
    rewrite E. cbn [bind]. exists s'. split.
    { f_equal. f_equal. rewrite (looped_rows src out (span m src) Hb), <- Hlen, Hn. reflexivity. }
    split; [exact R1|]. split.
    - rewrite (keep_iff s' src (span m src)); auto; [|lia]. rewrite R3. apply Nat.ltb_irrefl.
    - rewrite R6. unfold s1. cbn [fe_step]. rewrite St. lia.
  Qed.

  Lemma run_parts : forall parts blocks, Forall2 streamed parts blocks ->
    forall s : FE, ready parts s -> parts <> [] ->
    exists s', updates (length (List.concat blocks)) s = Ok (map Some (List.concat blocks), s') /\
      fe_iter s' = Some [] /\ keep_going s' = false /\
      fe_step s' = steps_so_far s + Z.of_nat (length (List.concat blocks)).
  Proof.
    induction 1 as [|p b parts blocks Hp F IH]; intros s R Hne; [contradiction|].
    cbn [List.concat]. rewrite app_length, map_app, updates_app.
    destruct (run_part p parts b s Hp R) as (s1 & E1 & I1 & K1 & S1). rewrite E1. cbn [bind].
    destruct F as [|p2 b2 parts blocks Hp2 F].
    - cbn. exists s1. rewrite Nat.add_0_r. auto.
    - destruct (IH s1) as (s2 & E2 & I2 & K2 & S2); [left; auto|discriminate|].
      rewrite E2. cbn [bind]. exists s2. repeat split; auto.
      rewrite S2. unfold steps_so_far at 1. rewrite I1, S1. lia.
  Qed.

  Lemma last_update (s : FE) : ready [] s -> exists s',
    update s = Ok (None, s') /\ fe_iter s' = None.
  Proof.
    intros R. destruct (ready_load _ _ R) as [s0 [E0 _]]. unfold fe_update. rewrite E0.
    cbn. eauto.
  Qed.

  (** one pass *)
  Lemma pass blocks (s : FE) : Forall2 streamed protocol blocks -> fe_iter s = None ->
    exists s', updates (S (length (List.concat blocks))) s
      = Ok (map Some (List.concat blocks) ++ [None], s') /\ fe_iter s' = None.
  Proof.
    intros F Hi. rewrite <- Nat.add_1_r, updates_app.
    assert (exists s1, updates (length (List.concat blocks)) s = Ok (map Some (List.concat blocks), s1) /\
      ready [] s1) as (s1 & E1 & R1).
    { assert (protocol = [] \/ protocol <> []) as [Ep|Ep] by (destruct protocol; [left|right]; easy).
      - assert (blocks = []) as -> by (rewrite Ep in F; now inversion F). cbn. exists s.
        split; [reflexivity|]. right. auto.
      - destruct (run_parts protocol blocks F s) as (s1 & E1 & I1 & K1 & _); [right; auto|exact Ep|].
        exists s1. split; [exact E1|]. left. auto. }
    rewrite E1. cbn [bind]. destruct (last_update s1 R1) as (s2 & E2 & I2).
    cbn [fe_updates]. rewrite E2. cbn [bind]. eauto.
  Qed.

  Lemma prefix_ok a : forall b (s : FE) xs s', updates (a + b) s = Ok (xs, s') ->
    exists s1, updates a s = Ok (firstn a xs, s1).
  Proof.
    intros b s xs s' E. rewrite updates_app in E.
    destruct (updates a s) as [[ys s1]|] eqn:Ea; cbn [bind] in E; [|discriminate].
    destruct (updates b s1) as [[zs s2]|] eqn:Eb; cbn [bind] in E; [|discriminate].
    injection E as <- <-. exists s1.
    assert (L : length ys = a).
    { clear -Ea. revert s ys s1 Ea. induction a as [|a IH]; intros s ys s1 E; cbn in E; [now injection E as <- _|].
      destruct (update s) as [[x s2]|]; cbn in E; [|discriminate].
      destruct (updates a s2) as [[xs s3]|] eqn:Ea; cbn in E; [|discriminate].
      injection E as <- <-. cbn. f_equal. eapply IH. exact Ea. }
    rewrite firstn_app, L, Nat.sub_diag, firstn_O, app_nil_r, <- L, firstn_all. reflexivity.
  Qed.

  Lemma stream_spec blocks : Forall2 streamed protocol blocks ->
    forall n (s : FE), fe_iter s = None ->
    exists s', updates n s = Ok (map (nth_update (List.concat blocks)) (seq 0 n), s').
  Proof.
    intros F. set (all := List.concat blocks). set (P := S (length all)).
    assert (First : map (nth_update all) (seq 0 P) = map Some all ++ [None]).
    { unfold P. rewrite seq_S, map_app. cbn [map]. f_equal.
      - symmetry. apply nth_error_ext. intros i. rewrite !nth_error_map.
        destruct (Nat.lt_ge_cases i (length all)) as [Hi|Hi].
        + rewrite (nth_error_nth' (seq 0 (length all)) O) by (rewrite seq_length; lia).
          rewrite seq_nth by lia. cbn [option_map]. unfold nth_update.
          rewrite Nat.mod_small by lia. cbn [Nat.add]. destruct (nth_error all i) eqn:E; [reflexivity|].
          apply nth_error_None in E. lia.
        + assert (nth_error all i = None) as -> by (apply nth_error_None; lia).
          assert (nth_error (seq 0 (length all)) i = None) as -> by (apply nth_error_None; rewrite seq_length; lia).
          reflexivity.
      - unfold nth_update. rewrite Nat.mod_small by (cbn; lia). cbn [Nat.add].
        f_equal. now apply nth_error_None. }
    induction n as [n IH] using lt_wf_ind. intros s Hi.
    destruct (Nat.le_gt_cases P n) as [Hn|Hn].
    - replace n with (P + (n - P))%nat by lia. rewrite updates_app.
      destruct (pass blocks s F Hi) as (s1 & E1 & I1). fold all P in E1. rewrite E1. cbn [bind].
      destruct (IH (n - P)%nat ltac:(unfold P in *; lia) s1 I1) as [s2 E2]. rewrite E2. cbn [bind].
      exists s2. f_equal. f_equal. rewrite seq_app, map_app, First. f_equal.
      assert (G : forall k j, map (nth_update all) (seq j k) = map (nth_update all) (seq (P + j) k)).
      { induction k as [|k IHk]; intros j; cbn [seq map]; [reflexivity|]. f_equal.
        - unfold nth_update. fold P. f_equal.
          replace (P + j)%nat with (j + 1 * P)%nat by lia. rewrite Nat.mod_add by (unfold P; lia). reflexivity.
        - rewrite <- Nat.add_succ_r. apply IHk. }
      rewrite (G _ O). now rewrite Nat.add_0_r.
    - destruct (pass blocks s F Hi) as (s1 & E1 & I1). fold all P in E1.
      replace P with (n + (P - n))%nat in E1 by lia. apply prefix_ok in E1. destruct E1 as [s2 E2].
      exists s2. rewrite E2. f_equal. f_equal. rewrite <- First. rewrite firstn_map. f_equal.
      replace P with (n + (P - n))%nat by lia. rewrite seq_app.
      rewrite firstn_app, seq_length, Nat.sub_diag, firstn_O, app_nil_r.
      replace n with (length (seq 0 n)) at 1 by apply seq_length. apply firstn_all.
  Qed.

  (** the global step counts the rows *)
  Lemma step_count blocks (s : FE) : protocol <> [] -> Forall2 streamed protocol blocks -> fe_iter s = None ->
    exists s', updates (length (List.concat blocks)) s = Ok (map Some (List.concat blocks), s') /\
      fe_step s' = Z.of_nat (length (List.concat blocks)).
  Proof.
    intros Hp F Hi.
    destruct (run_parts protocol blocks F s (or_intror (conj Hi eq_refl)) Hp) as (s1 & E1 & I1 & K1 & S1).
    exists s1. split; [exact E1|]. rewrite S1. unfold steps_so_far. rewrite Hi. lia.
  Qed.
End facts.

(** ** where the two ways of reading differ *)
Lemma negative_steps {Row} (read : pystr -> option Z -> result (list Row)) filters
  (d : pystr) m raw x y src (s : FileEnv Row) : d <> [] -> m < 0 ->
  read d None = Ok raw -> filters raw = Ok (x :: y :: src) -> fe_iter s = None ->
  (exists s', get_all_data read filters [(d, m)] s = Ok (x :: y :: src, s')) /\
  exists s', fe_updates read filters [(d, m)] 2 s = Ok ([Some x; None], s').
Proof.
  intros Hd Hm Hr Hf Hi.
  assert (P : (0 <? m) = false) by (apply Z.ltb_ge; lia).
  assert (LE : forall rest (s : FileEnv Row), next_block read filters ((d, m) :: rest) s = Ok _) by
    (intros rest s0; apply load_named with (raw := raw) (src := x :: y :: src); [exact Hd|now rewrite P|exact Hf]).
  split.
  - destruct (all_data_spec read filters [(d, m)] [x :: y :: src] s) as [s' [E _]]; [discriminate| |].
    + constructor; [|constructor]. exists raw, (x :: y :: src). cbn [fst snd]. rewrite P.
      repeat split; auto; try lia. apply looped_self.
    + cbn in E. rewrite app_nil_r in E. eauto.
  - cbn [fe_updates]. unfold fe_update, update_data_block. rewrite Hi, LE.
    cbn [bind]. unfold fe_get_data at 1. cbn [fe_data fe_local].
    rewrite Z.mod_0_l by (cbn [length]; lia). cbn [bind Z.ltb Z.compare Z.to_nat nth_error fe_iter].
    unfold keep_going. cbn [fe_data fe_max fe_local]. rewrite P.
    destruct (Z.eqb_spec m 0); [lia|]. cbn [andb orb bind next_block fe_reset fe_get_data fe_data]. eauto.
Qed.

Lemma empty_file {Row} (read : pystr -> option Z -> result (list Row)) filters
  (d : pystr) raw (s : FileEnv Row) : d <> [] ->
  read d None = Ok raw -> filters raw = Ok [] -> fe_iter s = None ->
  (exists s', get_all_data read filters [(d, 0)] s = Ok ([], s')) /\
  fe_update read filters [(d, 0)] s = Err ZeroDivisionError.
Proof.
  intros Hd Hr Hf Hi.
  assert (LE : forall rest (s : FileEnv Row), next_block read filters ((d, 0) :: rest) s = Ok _) by
    (intros rest s0; apply load_named with (raw := raw) (src := []); [exact Hd|exact Hr|exact Hf]).
  split.
  - destruct (all_data_spec read filters [(d, 0)] [[]] s) as [s' [E _]]; [discriminate| |].
    + constructor; [|constructor]. exists raw, []. cbn [fst snd]. repeat split; auto; try lia.
    + cbn in E. eauto.
  - unfold fe_update, update_data_block. rewrite Hi, LE. reflexivity.
Qed.

(** ** headers *)
Lemma first_part_iff (h p : pystr) : first_part h p <-> p = hd [] (split dash h).
Proof.
  split.
  - intros [N [->|[r ->]]].
    + now rewrite split_none.
    + rewrite split_app, split_none by exact N. reflexivity.
  - intros ->. pose proof (split_ne dash h) as NE. pose proof (split_free dash h) as F.
    pose proof (join_split dash h) as J. destruct (split dash h) as [|a l]; [contradiction|].
    cbn [hd]. split; [now inversion F|]. destruct l as [|b l].
    + left. symmetry. exact J.
    + right. exists (join [dash] (b :: l)). rewrite <- J. reflexivity.
Qed.

Lemma in_streq (h : pystr) l : existsb (streq h) l = true <-> In h l.
Proof.
  rewrite existsb_exists. split.
  - intros [x [Hx E]]. apply streq_spec in E. now subst.
  - intros H. exists h. split; [exact H|]. now apply streq_spec.
Qed.

Lemma headers_spec file_headers headers :
  let '(kept, mapping) := set_headers file_headers headers in
  (exists f, kept = filter f file_headers /\
     forall h, f h = true <-> In h headers \/ exists p, first_part h p /\ In p headers) /\
  (forall h p, In (h, p) mapping <->
     In h file_headers /\ ~ In h headers /\ first_part h p /\ In p headers).
Proof.
  set (f := fun h => existsb (streq h) headers || existsb (streq (hd [] (split dash h))) headers).
  assert (Hf : forall h, f h = true <-> In h headers \/ exists p, first_part h p /\ In p headers).
  { intros h. unfold f. rewrite Bool.orb_true_iff, !in_streq. split; intros [H|H]; auto.
    - right. exists (hd [] (split dash h)). split; [now apply first_part_iff|exact H].
    - destruct H as [p [Hp H]]. apply first_part_iff in Hp. subst p. auto. }
  induction file_headers as [|h hs IH]; cbn [set_headers].
  - split; [exists f; auto|]. intros h p. cbn. tauto.
  - destruct (set_headers hs headers) as [kept mapping]. destruct IH as [[g [Hk Hg]] IHm].
    assert (Hkf : kept = filter f hs).
    { rewrite Hk. apply filter_ext. intros a. apply Bool.eq_true_iff_eq. rewrite Hg, Hf. reflexivity. }
    destruct (existsb (streq h) headers) eqn:E1; [|destruct (existsb (streq (hd [] (split dash h))) headers) eqn:E2].
    + split.
      * exists f. split; [|exact Hf]. cbn [filter]. unfold f at 1. rewrite E1. cbn [orb]. now rewrite Hkf.
      * intros h' p. rewrite IHm. apply in_streq in E1. cbn [In]. split; [tauto|].
        intros ([->|H] & N & H2); [contradiction|tauto].
    + split.
      * exists f. split; [|exact Hf]. cbn [filter]. unfold f at 1. rewrite E1, E2. cbn [orb]. now rewrite Hkf.
      * assert (N1 : ~ In h headers) by (rewrite <- in_streq, E1; discriminate).
        apply in_streq in E2. intros h' p. cbn [In]. rewrite IHm. split.
        -- intros [E|H]; [|tauto]. injection E as <- <-. split; [now left|]. split; [exact N1|].
           split; [now apply first_part_iff|exact E2].
        -- intros ([<-|H] & N & Hp & Hin); [|tauto]. left. apply first_part_iff in Hp. now subst p.
    + split.
      * exists f. split; [|exact Hf]. cbn [filter]. unfold f at 1. rewrite E1, E2. cbn [orb]. exact Hkf.
      * assert (N2 : ~ In (hd [] (split dash h)) headers) by (rewrite <- in_streq, E2; discriminate).
        intros h' p. cbn [In]. rewrite IHm. split; [tauto|].
        intros ([<-|H] & N & Hp & Hin); [|tauto]. apply first_part_iff in Hp. subst p. contradiction.
Qed.
