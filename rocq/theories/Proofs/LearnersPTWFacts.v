(** learners.py's PTW computes the partition tree weighting recursion. *)
From Coq Require Import Lra.
From Verif Require Import Model.LearnersPTW Spec.PTWSpec Proofs.RealFacts Proofs.PyFacts Proofs.ProbFacts.
From Verif Require Import Proofs.PTWFacts Proofs.PTWTop Proofs.PTWMixture Proofs.HelpersFacts Proofs.LogsumexpFacts.
Open Scope R_scope.

Lemma h_lse_pair a b : h_log_sum_exp [a; b] = Ok (logsumexp2 a b).
Proof.
  rewrite h_log_sum_exp_ok by discriminate. cbn [map]. rewrite !Rsum_cons, Rsum_nil, Rplus_0_r.
  rewrite <- logsumexp2_spec. reflexivity.
Qed.

(** ** Boundaries of time steps *)
Notation bb := binary_boundary.

Lemma bb_0 t : bb t 0 = t.
Proof. rewrite boundary_mod by lia. rewrite Z.pow_0_r, Z.mod_1_r. lia. Qed.

Lemma bb_le t d : (0 <= d)%Z -> (bb t d <= t)%Z.
Proof. intros Hd. destruct (boundary_spec t d Hd) as (_ & H & _). exact H. Qed.

Lemma bb_nonneg t d : (0 <= t)%Z -> (0 <= d)%Z -> (0 <= bb t d)%Z.
Proof.
  intros Ht Hd. rewrite boundary_div by exact Hd. assert (0 < 2 ^ d)%Z by (apply Z.pow_pos_nonneg; lia).
  pose proof (Z.div_pos t (2 ^ d) Ht ltac:(lia)). nia.
Qed.

(** One level up. *)
Lemma bb_S t i : (0 <= t)%Z -> (0 <= i)%Z ->
  bb t (i + 1) = (if Z.testbit t i then bb t i - 2 ^ i else bb t i)%Z.
Proof.
  intros Ht Hi. rewrite !boundary_div by lia. rewrite Z.pow_add_r, Z.pow_1_r by lia.
  assert (Hp : (0 < 2 ^ i)%Z) by (apply Z.pow_pos_nonneg; lia).
  rewrite <- Z.div_div by lia. rewrite Z.testbit_odd, Z.shiftr_div_pow2 by lia.
  set (q := (t / 2 ^ i)%Z). pose proof (Zmod_odd q) as Ho. pose proof (Z.div_mod q 2 ltac:(lia)).
  destruct (Z.odd q); nia.
Qed.

Lemma bb_mono t i j : (0 <= t)%Z -> (0 <= i <= j)%Z -> (bb t j <= bb t i)%Z.
Proof.
  intros Ht Hij. destruct (boundary_spec t i) as (_ & _ & Hm); [lia|]. apply Hm.
  - destruct (boundary_spec t j) as (Hd & _); [lia|]. eapply Z.divide_trans; [|exact Hd].
    exists (2 ^ (j - i))%Z. rewrite <- Z.pow_add_r by lia. f_equal. lia.
  - apply bb_le. lia.
Qed.

Lemma bb_small t d : (0 <= t < 2 ^ d)%Z -> (0 <= d)%Z -> bb t d = 0%Z.
Proof. intros Ht Hd. rewrite boundary_mod by exact Hd. rewrite Z.mod_small; lia. Qed.

(** The first [mscb t] bits of [t] are ones. *)
Lemma low_ones t i : (0 <= t)%Z -> (0 <= i < mscb t)%Z -> Z.testbit t i = true.
Proof.
  intros Ht Hi. destruct (mscb_spec t Ht) as ((q & Hq) & _).
  assert (Hp : (0 < 2 ^ i)%Z) by (apply Z.pow_pos_nonneg; lia).
  rewrite Z.testbit_odd, Z.shiftr_div_pow2 by lia.
  replace t with ((q * 2 ^ (mscb t - i) - 1) * 2 ^ i + (2 ^ i - 1))%Z.
  2:{ rewrite Z.mul_sub_distr_r, <- Z.mul_assoc, <- Z.pow_add_r by lia.
      replace (mscb t - i + i)%Z with (mscb t) by lia. lia. }
  rewrite Z.div_add_l, Z.div_small by lia. rewrite Z.add_0_r.
  replace (mscb t - i)%Z with (1 + (mscb t - i - 1))%Z by lia. rewrite Z.pow_add_r, Z.pow_1_r by lia.
  replace (q * (2 * 2 ^ (mscb t - i - 1)) - 1)%Z with (1 + 2 * (q * 2 ^ (mscb t - i - 1) - 1))%Z by lia.
  rewrite Z.odd_add, Z.odd_mul. reflexivity.
Qed.

(** Above [mscb t] the next time step has the same boundaries. *)
Lemma bb_next t j : (0 <= t)%Z -> (mscb t < j)%Z -> bb (t + 1) j = bb t j.
Proof.
  intros Ht Hj. pose proof (mscb_nonneg t Ht).
  assert (Hp : (0 < 2 ^ j)%Z) by (apply Z.pow_pos_nonneg; lia).
  rewrite !boundary_div by lia. f_equal.
  rewrite <- !Z.shiftr_div_pow2 by lia. apply Z.bits_inj'. intros n Hn.
  rewrite !Z.shiftr_spec by lia. symmetry. apply mscb_bits; lia.
Qed.

Lemma bb_next_low t j : (0 <= t)%Z -> (0 <= j <= mscb t)%Z -> bb (t + 1) j = (t + 1)%Z.
Proof. intros Ht Hj. apply start_spec; [lia|]. apply start_mscb; lia. Qed.

Lemma bb_mscb t : (0 <= t)%Z -> bb t (mscb t) = (t + 1 - 2 ^ mscb t)%Z.
Proof.
  intros Ht. pose proof (mscb_nonneg t Ht) as Hm. destruct (mscb_spec t Ht) as ((q & Hq) & _).
  assert (Hp : (0 < 2 ^ mscb t)%Z) by (apply Z.pow_pos_nonneg; lia).
  rewrite boundary_mod by lia.
  assert (E : (2 ^ mscb t - 1 = t mod 2 ^ mscb t)%Z) 
    by (apply Z.mod_unique with (q - 1)%Z; [left; lia|]; set (X := (2 ^ mscb t)%Z) in *; nia). lia.
Qed.

Lemma bit_next_low t i : (0 <= t)%Z -> (0 <= i < mscb t)%Z -> Z.testbit (t + 1) i = false.
Proof.
  intros Ht Hi. pose proof (bb_S (t + 1) i ltac:(lia) ltac:(lia)) as H.
  rewrite !bb_next_low in H by lia. destruct (Z.testbit (t + 1) i); [|reflexivity].
  assert (0 < 2 ^ i)%Z by (apply Z.pow_pos_nonneg; lia). lia.
Qed.

Lemma bit_next_mscb t : (0 <= t)%Z -> Z.testbit (t + 1) (mscb t) = true.
Proof.
  intros Ht. pose proof (mscb_nonneg t Ht) as Hm. destruct (mscb_spec t Ht) as (_ & Hn).
  destruct (Z.testbit (t + 1) (mscb t)) eqn:E; [reflexivity|exfalso]. apply Hn.
  pose proof (bb_S (t + 1) (mscb t) ltac:(lia) ltac:(lia)) as H. rewrite E, (bb_next_low t (mscb t)) in H by lia.
  rewrite <- H. apply boundary_spec. lia.
Qed.

Lemma mscb_le_depth t d : (0 <= t < 2 ^ d)%Z -> (0 <= d)%Z -> (mscb t <= d)%Z.
Proof.
  intros Ht Hd. destruct (mscb_spec t ltac:(lia)) as (Hdv & _). pose proof (mscb_nonneg t ltac:(lia)).
  apply Z.divide_pos_le in Hdv; [|lia]. destruct (Z.le_gt_cases (mscb t) d) as [|Hgt]; [assumption|exfalso].
  assert (2 ^ d < 2 ^ mscb t)%Z by (apply Z.pow_lt_mono_r; lia). lia.
Qed.

Lemma bit_lower t i : (0 <= t)%Z -> (0 <= i)%Z -> Z.testbit t i = true -> (bb t (i + 1) + 2 ^ i <= t)%Z.
Proof. intros Ht Hi Hb. rewrite bb_S, Hb by lia. pose proof (bb_le t i Hi). lia. Qed.

Lemma bit_upper t i : (0 <= t)%Z -> (0 <= i)%Z -> Z.testbit t i = false -> (t < bb t (i + 1) + 2 ^ i)%Z.
Proof. intros Ht Hi Hb. rewrite bb_S, Hb by lia. apply boundary_next. lia. Qed.

(** ** Dictionaries *)
Lemma dict_del_ok {V} (d : dict V) k : In k (map fst d) ->
  dict_del d k = Ok (filter (fun kv => negb (fst kv =? k)%Z) d).
Proof.
  intros H. unfold dict_del, dict_mem. destruct (dict_get_key d k H) as (v & ->). reflexivity.
Qed.

Lemma filter_keys_nodup {V} (f : Z * V -> bool) (d : dict V) : NoDup (map fst d) -> NoDup (map fst (filter f d)).
Proof.
  induction d as [|kv d IH]; cbn [map filter]; intros H; [exact H|]. inversion H as [|x y Hn Hd]; subst.
  destruct (f kv); cbn [map]; [|apply IH, Hd]. constructor; [|apply IH, Hd].
  intros Hi. apply Hn. apply in_map_iff in Hi as (z & <- & Hz). apply filter_In in Hz as (Hz & _).
  apply in_map, Hz.
Qed.

Lemma py_get_nth {X} (l : list X) i x : nth_error l i = Some x -> py_get l (Z.of_nat i) = Ok x.
Proof.
  intros H. assert (Hl : (i < length l)%nat) by (apply nth_error_Some; congruence).
  unfold py_get, py_index. replace (Z.of_nat i <? 0)%Z with false by (symmetry; apply Z.ltb_ge; lia).
  replace ((0 <=? Z.of_nat i) && (Z.of_nat i <? Z.of_nat (length l)))%Z with true
    by (symmetry; apply andb_true_iff; split; [apply Z.leb_le|apply Z.ltb_lt]; lia).
  cbn [bind]. rewrite Nat2Z.id, H. reflexivity.
Qed.

Lemma py_set_nth {X} (l : list X) i x : (i < length l)%nat -> py_set l (Z.of_nat i) x = Ok (list_set l i x).
Proof.
  intros Hl. unfold py_set, py_index. replace (Z.of_nat i <? 0)%Z with false by (symmetry; apply Z.ltb_ge; lia).
  replace ((0 <=? Z.of_nat i) && (Z.of_nat i <? Z.of_nat (length l)))%Z with true
    by (symmetry; apply andb_true_iff; split; [apply Z.leb_le|apply Z.ltb_lt]; lia).
  cbn [bind]. rewrite Nat2Z.id. reflexivity.
Qed.

(** ** The clearing loop *)
Lemma clear_done_ok {S} (t : Z) : (0 <= t)%Z -> forall k i (models : dict (S * R)) completed,
  (Z.of_nat i + Z.of_nat k = mscb t)%Z -> (i + k < length completed)%nat -> NoDup (map fst models) ->
  (forall j, (i <= j < i + k)%nat -> In (bb t (Z.of_nat j)) (map fst models)) ->
  exists models' completed', clear_done t k (Z.of_nat i) models completed = Ok (models', completed') /\
    NoDup (map fst models') /\
    (forall kv, In kv models' <-> In kv models /\ forall j, (i <= j < i + k)%nat -> fst kv <> bb t (Z.of_nat j)) /\
    length completed' = length completed /\
    (forall j, nth_error completed' j = if (i <=? j)%nat && (j <? i + k)%nat then Some 0 else nth_error completed j).
Proof.
  intros Ht. induction k as [|k IH]; intros i models completed Hik Hlen Hnd Hin.
  - exists models, completed. split; [reflexivity|]. split; [exact Hnd|]. split; [|split].
    + intros kv. split; [intros H; split; [exact H|intros j Hj; lia]|tauto].
    + reflexivity.
    + intros j. replace (j <? i + 0)%nat with (negb (i <=? j)%nat); [destruct (i <=? j)%nat; reflexivity|].
      rewrite Nat.add_0_r, <- Nat.ltb_antisym. reflexivity.
  - cbn [clear_done]. rewrite py_set_nth by lia. cbn [bind].
    assert (Hbit : Z.testbit t (Z.of_nat i) = true) by (apply low_ones; lia).
    pose proof (bb_S t (Z.of_nat i) Ht ltac:(lia)) as HS. rewrite Hbit in HS.
    assert (Hp : (0 < 2 ^ Z.of_nat i)%Z) by (apply Z.pow_pos_nonneg; lia).
    replace (bb t (Z.of_nat i) =? bb t (Z.of_nat i + 1))%Z with false by (symmetry; apply Z.eqb_neq; lia).
    rewrite dict_del_ok by (apply Hin; lia). cbn [bind].
    set (models1 := filter _ models).
    replace (Z.of_nat i + 1)%Z with (Z.of_nat (Datatypes.S i)) by lia.
    assert (Hlow : forall j, (i < j)%nat -> (bb t (Z.of_nat j) < bb t (Z.of_nat i))%Z).
    { intros j Hj. pose proof (bb_mono t (Z.of_nat i + 1) (Z.of_nat j) Ht ltac:(lia)). lia. }
    destruct (IH (Datatypes.S i) models1 (list_set completed i 0)) as (m' & c' & E & Hnd' & Hm' & Hl' & Hc').
    + lia.
    + rewrite list_set_length. lia.
    + apply filter_keys_nodup, Hnd.
    + intros j Hj. specialize (Hin j ltac:(lia)). apply in_map_iff in Hin as (kv & Hk & Hkv).
      apply in_map_iff. exists kv. split; [exact Hk|]. apply filter_In. split; [exact Hkv|].
      apply negb_true_iff, Z.eqb_neq. specialize (Hlow j ltac:(lia)). lia.
    + exists m', c'. split; [exact E|]. split; [exact Hnd'|]. split; [|split].
      * intros kv. rewrite Hm'. unfold models1. rewrite filter_In, negb_true_iff, Z.eqb_neq. split.
        -- intros ((H1 & H2) & H3). split; [exact H1|]. intros j Hj.
           destruct (Nat.eq_dec j i) as [->|Hji]; [exact H2|]. apply H3. lia.
        -- intros (H1 & H2). split; [split; [exact H1|apply H2; lia]|]. intros j Hj. apply H2. lia.
      * rewrite Hl'. apply list_set_length.
      * intros j. rewrite Hc'. destruct (Nat.leb_spec (Datatypes.S i) j) as [Ha|Ha]; destruct (Nat.ltb_spec j (Datatypes.S i + k)) as [Hb|Hb]; cbn [andb].
        -- replace (i <=? j)%nat with true by (symmetry; apply Nat.leb_le; lia).
           replace (j <? i + Datatypes.S k)%nat with true by (symmetry; apply Nat.ltb_lt; lia). reflexivity.
        -- replace (j <? i + Datatypes.S k)%nat with false by (symmetry; apply Nat.ltb_ge; lia).
           rewrite andb_false_r. apply nth_error_list_set_other. lia.
        -- destruct (Nat.eq_dec j i) as [->|Hji].
           ++ rewrite Nat.leb_refl. replace (i <? i + Datatypes.S k)%nat with true by (symmetry; apply Nat.ltb_lt; lia).
              cbn [andb]. apply nth_error_list_set_same. lia.
           ++ replace (i <=? j)%nat with false by (symmetry; apply Nat.leb_gt; lia). apply nth_error_list_set_other. lia.
        -- lia.
  Qed.

Section facts.
  Context {S : Type} (M : model S) (fresh : S).
  Context (A : list Z) (Inv : S -> Prop).
  Notation bare := (fun h : list Z => h = []).
  Notation unit_weight := (fun w : R => w = 1).
  Hypothesis HS : steps M A bare unit_weight Inv.
  Hypothesis Hinv : Inv fresh.
  Notation ok := (ok_event A bare unit_weight).
  Notation mk := (fun _ : nat => fresh).
  Notation P d evs := (ptw_prob M mk 0 d 0 evs).
  Notation seg t i E := (skipn (Z.to_nat (bb t (Z.of_nat i))) E).

  Lemma start_irrelevant d : forall s s' evs, ptw_prob M mk 0 d s evs = ptw_prob M mk 0 d s' evs.
  Proof.
    induction d as [|d IH]; intros s s' evs; cbn [ptw_prob]; [reflexivity|].
    rewrite (IH s s'), (IH (s + _)%nat (s' + 2 ^ (0 + d))%nat). reflexivity.
  Qed.

  (** What [completed_log_probs[i]] holds after [E]. *)
  Definition done_prob (i : nat) (E : list event) : R :=
    let t := Z.of_nat (length E) in
    if Z.testbit t (Z.of_nat i) then P i (firstn (2 ^ i) (seg t (Datatypes.S i) E)) else 1.

  Lemma to_nat_pow i : Z.to_nat (2 ^ Z.of_nat i) = (2 ^ i)%nat.
  Proof. rewrite <- (Nat2Z.id (2 ^ i)), Nat2Z.inj_pow. reflexivity. Qed.

  (** One level of the walk. *)
  Lemma walk_level i E e l c x : let t := Z.of_nat (length E) in
    exp l = seq_prob M fresh (seg t (Datatypes.S i) (E ++ [e])) -> exp c = done_prob i E ->
    exp x = P i (seg t i (E ++ [e])) ->
    exp (log_0_5 + logsumexp2 l (c + x)) = P (Datatypes.S i) (seg t (Datatypes.S i) (E ++ [e])).
  Proof.
    intros t Hl Hc Hx. rewrite mix_exp, exp_plus, Hl, Hc, Hx. unfold done_prob. fold t.
    assert (Ht : (0 <= t)%Z) by lia. assert (Hi : (0 <= Z.of_nat i)%Z) by lia.
    replace (Z.of_nat (Datatypes.S i)) with (Z.of_nat i + 1)%Z by lia.
    pose proof (bb_nonneg t (Z.of_nat i + 1) Ht ltac:(lia)) as Hb0.
    destruct (Z.testbit t (Z.of_nat i)) eqn:Hbit.
    - pose proof (bit_lower t (Z.of_nat i) Ht Hi Hbit) as Hlo. pose proof (bb_S t (Z.of_nat i) Ht Hi) as HbS.
      rewrite Hbit in HbS. pose proof (to_nat_pow i) as Hpw.
      assert (Hp : (0 < 2 ^ Z.of_nat i)%Z) by (apply Z.pow_pos_nonneg; lia).
      set (b := bb t (Z.of_nat i + 1)) in *. cbn [ptw_prob Nat.add].
      assert (Hlen : (Z.to_nat b + 2 ^ i <= length E)%nat) by lia.
      rewrite (skipn_snoc (Z.to_nat b)) by lia. rewrite firstn_snoc by (rewrite skipn_length; lia).
      rewrite <- (skipn_snoc (Z.to_nat b)) by lia. rewrite skipn_add.
      replace (Z.to_nat b + 2 ^ i)%nat with (Z.to_nat (bb t (Z.of_nat i))) by lia.
      rewrite (start_irrelevant i (2 ^ i)%nat 0). reflexivity.
    - pose proof (bit_upper t (Z.of_nat i) Ht Hi Hbit) as Hup. pose proof (bb_S t (Z.of_nat i) Ht Hi) as HbS.
      rewrite Hbit in HbS. rewrite <- HbS in *.
      assert (Hp : (0 < 2 ^ Z.of_nat i)%Z) by (apply Z.pow_pos_nonneg; lia). pose proof (to_nat_pow i) as Hpw.
      rewrite ptw_prob_short; [lra|]. rewrite skipn_length, app_length. cbn [length Nat.add]. lia.
  Qed.

  (** An entry of the model dictionary: the base model fed since its key. *)
  Definition entry (E : list event) (kv : Z * (S * R)) : Prop :=
    (0 <= fst kv <= Z.of_nat (length E))%Z /\ run M fresh (skipn (Z.to_nat (fst kv)) E) = Ok (snd kv).

  Definition completed_ok (D : nat) (E : list event) (completed : list R) : Prop :=
    length completed = (D + 1)%nat /\
    forall i, (i <= D)%nat -> exists c, nth_error completed i = Some c /\ exp c = done_prob i E.

  Record linv (D : nat) (E : list event) (s : lptw (S := S)) : Prop := Linv {
    li_depth : lw_depth s = D;
    li_steps : lw_steps s = Z.of_nat (length E);
    li_full : (length E <= 2 ^ D)%nat;
    li_entries : Forall (entry E) (lw_models s);
    li_nodup : NoDup (map fst (lw_models s));
    li_needed : forall i, (i <= D)%nat -> let b := bb (Z.of_nat (length E)) (Z.of_nat i) in
      b <> Z.of_nat (length E) -> In b (map fst (lw_models s));
    li_keys : forall k, In k (map fst (lw_models s)) ->
      exists i, (1 <= i <= D + 1)%nat /\ k = bb (Z.of_nat (length E)) (Z.of_nat i);
    li_completed : completed_ok D E (lw_completed s);
    li_lp : exp (lw_lp s) = P D E }.

  Lemma linv_init D : linv D [] (lptw_init fresh D).
  Proof.
    split; cbn [lptw_init lw_depth lw_steps lw_models lw_completed lw_lp length].
    - reflexivity.
    - reflexivity.
    - lia.
    - constructor; [|constructor]. split; [cbn; lia|]. cbn. reflexivity.
    - repeat constructor. intros [].
    - intros i Hi Hb. exfalso. apply Hb. apply bb_small; [|lia]. split; [lia|]. apply Z.pow_pos_nonneg; lia.
    - cbn. intros k [<-|[]]. exists 1%nat. split; [lia|reflexivity].
    - split; [apply repeat_length|]. intros i Hi. exists 0. split.
      + rewrite nth_error_repeat by lia. reflexivity.
      + unfold done_prob. cbn [length Z.of_nat]. rewrite Z.testbit_0_l. apply exp_0.
    - rewrite exp_0. symmetry. clear HS Hinv. induction D as [|D IH]; cbn [ptw_prob]; [reflexivity|].
      rewrite firstn_nil, skipn_nil, (start_irrelevant D (0 + 2 ^ (0 + D))%nat 0%nat), IH. cbn [seq_prob]. lra.
  Qed.

  Lemma update_entries E e (models : dict (S * R)) : Forall ok E -> ok e -> Forall (entry E) models ->
    exists models2,
      mapM (fun kv : Z * (S * R) => let '(k, (m, lp)) := kv in
              do (m', l) <- m_update M m (ev_sym e) [] 1; Ok (k, (m', lp + l))) models = Ok models2 /\
      map fst models2 = map fst models /\ Forall (entry (E ++ [e])) models2.
  Proof.
    intros HE (Ha & Hh & Hw) HF. induction HF as [|[k [m lp]] models (Hk & Hr) HF (m2 & IH & Hfst & Hent)].
    - exists []. repeat split; constructor.
    - cbn [fst snd] in Hk, Hr. assert (Hm : Inv m).
      { destruct (steps_run M A bare unit_weight Inv HS fresh (skipn (Z.to_nat k) E) Hinv) as (m' & l' & Hr' & Hm');
          [apply Forall_skipn, HE|]. rewrite Hr' in Hr. injection Hr as <- _. exact Hm'. }
      destruct (HS m (ev_sym e) [] 1 Hm Ha eq_refl eq_refl) as (m' & l & Hu & _ & _).
      exists ((k, (m', lp + l)) :: m2). cbn [mapM]. rewrite Hu. cbn [bind]. rewrite IH. cbn [bind map fst].
      rewrite Hfst. split; [reflexivity|]. split; [reflexivity|]. constructor; [|exact Hent].
      split; cbn [fst snd]; [rewrite app_length; cbn [length]; lia|]. rewrite skipn_snoc by lia.
      apply (run_snoc _ _ _ _ _ _ _ _ Hr). rewrite Hh, Hw. exact Hu.
  Qed.

  (** The base model of every enclosing segment is in the dictionary. *)
  Definition covers (D : nat) (E E' : list event) (models : dict (S * R)) : Prop :=
    forall i, (i <= D)%nat -> exists m l, dict_get models (bb (Z.of_nat (length E)) (Z.of_nat i)) = Some (m, l) /\
      exp l = seq_prob M fresh (seg (Z.of_nat (length E)) i E').

  Lemma walk_ok D E e models completed cb : let t := Z.of_nat (length E) in
    covers D E (E ++ [e]) models -> completed_ok D E completed -> (cb <= D)%nat ->
    forall k j part complete, (j + k)%nat = D -> exp part = P j (seg t j (E ++ [e])) ->
      ((cb <= j)%nat -> exp complete = P cb (seg t cb (E ++ [e]))) ->
      exists part' complete', walk models completed t (Z.of_nat cb) k (Z.of_nat j + 1) part complete = Ok (part', complete') /\
        exp part' = P D (seg t D (E ++ [e])) /\ exp complete' = P cb (seg t cb (E ++ [e])).
  Proof.
    intros t Hcov (Hlen & Hcomp) Hcb. induction k as [|k IH]; intros j part complete Hjk Hpart Hcpl; cbn [walk].
    - exists part, complete. replace D with j by lia. split; [reflexivity|]. split; [exact Hpart|]. apply Hcpl. lia.
    - replace (Z.of_nat j + 1)%Z with (Z.of_nat (Datatypes.S j)) by lia.
      destruct (Hcov (Datatypes.S j) ltac:(lia)) as (m & l & Hg & Hl). fold t in Hg, Hl.
      unfold dict_lookup. rewrite Hg. cbn [bind].
      replace (Z.of_nat (Datatypes.S j) - 1)%Z with (Z.of_nat j) by lia.
      destruct (Hcomp j ltac:(lia)) as (c & Hc & Hce). rewrite (py_get_nth _ _ _ Hc). cbn [bind].
      rewrite h_lse_pair. cbn [bind].
      pose proof (walk_level j E e l c part Hl Hce Hpart) as Hlev. fold t in Hlev.
      apply (IH (Datatypes.S j)); [lia|exact Hlev|]. intros Hcj.
      destruct (Z.eqb_spec (Z.of_nat (Datatypes.S j)) (Z.of_nat cb)) as [Heq|Hne].
      + replace cb with (Datatypes.S j) by lia. exact Hlev.
      + apply Hcpl. lia.
  Qed.

  (** Appending one event to a base model found by its key. *)
  Lemma entry_predict E e kv : Forall ok E -> ok e -> entry E kv ->
    exists l, m_logp M (fst (snd kv)) (ev_sym e) [] = Ok l /\
      exp (l + snd (snd kv)) = seq_prob M fresh (skipn (Z.to_nat (fst kv)) (E ++ [e])).
  Proof.
    intros HE (Ha & Hh & Hw) (Hk & Hr). destruct kv as [k [m lp]]. cbn [fst snd] in *.
    assert (Hm : Inv m).
    { destruct (steps_run M A bare unit_weight Inv HS fresh (skipn (Z.to_nat k) E) Hinv) as (m' & l' & Hr' & Hm');
        [apply Forall_skipn, HE|]. rewrite Hr' in Hr. injection Hr as <- _. exact Hm'. }
    destruct (HS m (ev_sym e) [] 1 Hm Ha eq_refl eq_refl) as (m' & l & Hu & Hp & _).
    exists l. split; [exact Hp|]. rewrite skipn_snoc by lia. rewrite Rplus_comm. symmetry.
    eapply seq_prob_run. apply (run_snoc _ _ _ _ _ _ _ _ Hr). rewrite Hh, Hw. exact Hu.
  Qed.

  Lemma pwalk_ok D E e s : let t := Z.of_nat (length E) in
    Forall ok E -> ok e -> linv D E s ->
    forall k j pred, (j + k)%nat = D -> exp pred = P j (seg t j (E ++ [e])) ->
      exists pred', pwalk M fresh (lw_models s) (lw_completed s) t (ev_sym e) k (Z.of_nat j + 1) pred = Ok pred' /\
        exp pred' = P D (seg t D (E ++ [e])).
  Proof.
    intros t HE He HI. destruct (li_completed _ _ _ HI) as (Hlen & Hcomp).
    induction k as [|k IH]; intros j pred Hjk Hpred; cbn [pwalk].
    - exists pred. replace D with j by lia. split; [reflexivity|exact Hpred].
    - replace (Z.of_nat j + 1)%Z with (Z.of_nat (Datatypes.S j)) by lia.
      set (v := match dict_get (lw_models s) (bb t (Z.of_nat (Datatypes.S j))) with Some v => v | None => (fresh, 0) end).
      assert (Hent : entry E (bb t (Z.of_nat (Datatypes.S j)), v)).
      { unfold v. destruct (dict_get (lw_models s) (bb t (Z.of_nat (Datatypes.S j)))) as [v0|] eqn:Eg.
        - apply dict_get_in in Eg. pose proof (li_entries _ _ _ HI) as HF. rewrite Forall_forall in HF.
          apply HF, Eg.
        - assert (Hb : bb t (Z.of_nat (Datatypes.S j)) = t).
          { destruct (Z.eq_dec (bb t (Z.of_nat (Datatypes.S j))) t) as [Hb|Hb]; [exact Hb|exfalso].
            apply dict_get_none in Eg. apply Eg. apply (li_needed _ _ _ HI (Datatypes.S j)); [lia|exact Hb]. }
          split; cbn [fst snd]; rewrite Hb; unfold t; [lia|]. rewrite Nat2Z.id, skipn_all. reflexivity. }
      destruct (entry_predict E e _ HE He Hent) as (l & Hl & Hle). cbn [fst snd] in Hl, Hle.
      destruct v as [m mlp]. cbn [fst snd] in Hl, Hle. rewrite Hl. cbn [bind].
      replace (Z.of_nat (Datatypes.S j) - 1)%Z with (Z.of_nat j) by lia.
      destruct (Hcomp j ltac:(lia)) as (c & Hc & Hce). rewrite (py_get_nth _ _ _ Hc). cbn [bind].
      rewrite h_lse_pair. cbn [bind]. apply (IH (Datatypes.S j)); [lia|].
      rewrite (Rplus_comm pred c). apply (walk_level j E e (l + mlp) c pred); assumption.
  Qed.

  Lemma bit_next_high t i : (0 <= t)%Z -> (mscb t < i)%Z -> Z.testbit (t + 1) i = Z.testbit t i.
  Proof.
    intros Ht Hi. pose proof (mscb_nonneg t Ht). pose proof (bb_S (t + 1) i ltac:(lia) ltac:(lia)) as H1.
    pose proof (bb_S t i Ht ltac:(lia)) as H2. rewrite !bb_next in H1 by lia.
    assert (Hp : (0 < 2 ^ i)%Z) by (apply Z.pow_pos_nonneg; lia).
    destruct (Z.testbit (t + 1) i), (Z.testbit t i); try reflexivity; lia.
  Qed.

  Lemma start_next t : (0 <= t)%Z -> bb (t + 1) (mscb t + 1) = bb t (mscb t).
  Proof.
    intros Ht. pose proof (mscb_nonneg t Ht). rewrite bb_S by lia. rewrite bit_next_mscb by exact Ht.
    rewrite bb_next_low by lia. rewrite bb_mscb by exact Ht. reflexivity.
  Qed.

  (** The segment probabilities stored for completed parts, one symbol later. *)
  Lemma done_next E e i : let t := Z.of_nat (length E) in
    done_prob i (E ++ [e]) =
    if (Z.of_nat i <? mscb t)%Z then 1 else
    if (Z.of_nat i =? mscb t)%Z then P i (seg t i (E ++ [e])) else done_prob i E.
  Proof.
    intros t. assert (Ht : (0 <= t)%Z) by lia. pose proof (mscb_nonneg t Ht).
    unfold done_prob. rewrite app_length. cbn [length].
    replace (Z.of_nat (length E + 1)) with (t + 1)%Z by lia.
    destruct (Z.ltb_spec (Z.of_nat i) (mscb t)) as [Hlt|Hge].
    - rewrite bit_next_low by lia. reflexivity.
    - destruct (Z.eqb_spec (Z.of_nat i) (mscb t)) as [Heq|Hne].
      + replace (Z.of_nat (Datatypes.S i)) with (mscb t + 1)%Z by lia. rewrite Heq, bit_next_mscb, start_next by lia.
        rewrite firstn_all2; [reflexivity|]. rewrite skipn_length, app_length. cbn [length].
        rewrite bb_mscb by lia. rewrite <- Heq. pose proof (to_nat_pow i).
        assert (0 < 2 ^ Z.of_nat i)%Z by (apply Z.pow_pos_nonneg; lia). lia.
      + rewrite bit_next_high by lia. fold t. destruct (Z.testbit t (Z.of_nat i)) eqn:Hb; [|reflexivity].
        rewrite bb_next by lia. pose proof (bit_lower t (Z.of_nat i) Ht ltac:(lia) Hb) as Hlo.
        replace (Z.of_nat (Datatypes.S i)) with (Z.of_nat i + 1)%Z by lia. pose proof (to_nat_pow i) as Hpw.
        pose proof (bb_nonneg t (Z.of_nat i + 1) Ht ltac:(lia)).
        assert (0 < 2 ^ Z.of_nat i)%Z by (apply Z.pow_pos_nonneg; lia).
        rewrite skipn_snoc by lia. rewrite firstn_snoc; [reflexivity|]. rewrite skipn_length. lia.
  Qed.

  Lemma pow_Z D n : (n < 2 ^ D)%nat <-> (Z.of_nat n < 2 ^ Z.of_nat D)%Z.
  Proof. pose proof (to_nat_pow D). assert (0 < 2 ^ Z.of_nat D)%Z by (apply Z.pow_pos_nonneg; lia). lia. Qed.

  (** One update. *)
  Lemma lptw_step D E e s : Forall ok E -> ok e -> linv D E s -> (length E < 2 ^ D)%nat ->
    exists s' l, lptw_update M fresh s (ev_sym e) (ev_hist e) (ev_wt e) = Ok (s', l) /\
      linv D (E ++ [e]) s' /\ l = lw_lp s' - lw_lp s /\
      lptw_log_predict M fresh s (ev_sym e) (ev_hist e) = Ok l.
  Proof.
    intros HE He HI Hlt. pose proof He as (Ha & Hh & Hw). set (t := Z.of_nat (length E)).
    assert (Ht : (0 <= t)%Z) by lia. pose proof (proj1 (pow_Z D (length E)) Hlt) as HtD. fold t in HtD.
    pose proof (mscb_le_depth t (Z.of_nat D) ltac:(lia) ltac:(lia)) as HcbD. pose proof (mscb_nonneg t Ht) as Hcb0.
    unfold lptw_update, max_steps. rewrite (li_depth _ _ _ HI), (li_steps _ _ _ HI). fold t.
    replace (t >=? 2 ^ Z.of_nat D)%Z with false by (symmetry; rewrite Z.geb_leb; apply Z.leb_gt; lia).
    set (models1 := dict_set (lw_models s) t (fresh, 0)).
    assert (HF1 : Forall (entry E) models1).
    { apply Forall_forall. intros [k v] Hin. pose proof (dict_set_nodup _ t (fresh, 0) (li_nodup _ _ _ HI)) as Hnd.
      pose proof (dict_in_get _ _ _ Hnd Hin) as Hg. destruct (Z.eq_dec k t) as [->|Hk].
      - rewrite dict_get_set_same in Hg. injection Hg as <-. split; cbn [fst snd]; unfold t; [lia|].
        rewrite Nat2Z.id, skipn_all. reflexivity.
      - rewrite dict_get_set_other in Hg by exact Hk. apply dict_get_in in Hg.
        pose proof (li_entries _ _ _ HI) as HF. rewrite Forall_forall in HF. apply HF, Hg. }
    assert (Hin1 : forall k, In k (map fst models1) <-> k = t \/ In k (map fst (lw_models s))).
    { intros k. unfold models1. destruct (in_dec Z.eq_dec t (map fst (lw_models s))) as [Hi|Hi].
      - rewrite dict_set_keys_mem by exact Hi. split; [auto|]. intros [->|?]; assumption.
      - rewrite dict_set_keys_new by exact Hi. rewrite map_app, in_app_iff. cbn [map fst In]. intuition auto. }
    destruct (update_entries E e models1 HE He HF1) as (models2 & Hmap & Hfst2 & HF2). rewrite Hmap. cbn [bind].
    assert (Hnd2 : NoDup (map fst models2)) by (rewrite Hfst2; apply dict_set_nodup, HI).
    assert (Hall : forall i, (i <= D)%nat -> In (bb t (Z.of_nat i)) (map fst models2)).
    { intros i Hi. rewrite Hfst2, Hin1. destruct (Z.eq_dec (bb t (Z.of_nat i)) t) as [|Hb]; [left; assumption|right].
      apply (li_needed _ _ _ HI i Hi). exact Hb. }
    assert (Hcov : covers D E (E ++ [e]) models2).
    { intros i Hi. destruct (dict_get_key models2 _ (Hall i Hi)) as ([m l] & Hg). exists m, l. split; [exact Hg|].
      apply dict_get_in in Hg. rewrite Forall_forall in HF2. destruct (HF2 _ Hg) as (_ & Hr). cbn [fst snd] in Hr.
      symmetry. eapply seq_prob_run. exact Hr. }
    destruct (Hcov 0%nat ltac:(lia)) as (m0 & l0 & Hg0 & Hl0). fold t in Hg0, Hl0. cbn [Z.of_nat] in Hg0, Hl0.
    rewrite bb_0 in Hg0. unfold dict_lookup at 1. rewrite Hg0. cbn [bind].
    destruct (walk_ok D E e models2 (lw_completed s) (Z.to_nat (mscb t)) Hcov (li_completed _ _ _ HI) ltac:(lia)
                D 0 l0 l0 ltac:(lia)) as (part & complete & Hwalk & Hpart & Hcpl).
    { cbn [Z.of_nat ptw_prob]. exact Hl0. }
    { intros H0. replace (Z.to_nat (mscb t)) with 0%nat by lia. cbn [Z.of_nat ptw_prob]. exact Hl0. }
    fold t in Hwalk, Hpart, Hcpl. rewrite Z2Nat.id in Hwalk, Hcpl by exact Hcb0. cbn [Z.of_nat Z.add] in Hwalk.
    rewrite Hwalk. cbn [bind].
    rewrite (bb_small t (Z.of_nat D)) in Hpart by lia. cbn [Z.to_nat skipn] in Hpart.
    destruct (li_completed _ _ _ HI) as (Hclen & Hcomp).
    replace (py_set (lw_completed s) (mscb t) complete) with (py_set (lw_completed s) (Z.of_nat (Z.to_nat (mscb t))) complete)
      by (rewrite Z2Nat.id by exact Hcb0; reflexivity).
    rewrite py_set_nth by lia. cbn [bind].
    destruct (clear_done_ok t Ht (Z.to_nat (mscb t)) 0 models2 (list_set (lw_completed s) (Z.to_nat (mscb t)) complete))
      as (models3 & completed2 & Hcl & Hnd3 & Hm3 & Hl3 & Hc3).
    { lia. }
    { rewrite list_set_length. lia. }
    { exact Hnd2. }
    { intros j Hj. apply Hall. lia. }
    cbn [Z.of_nat] in Hcl. rewrite Hcl. cbn [bind].
    eexists _, _. split; [reflexivity|]. cbn [lw_lp]. split; [|split; [reflexivity|]].
    2:{ unfold lptw_log_predict. destruct (HS fresh (ev_sym e) [] 1 Hinv Ha eq_refl eq_refl) as (s1 & l1 & Hu1 & Hp1 & _).
        rewrite Hp1. cbn [bind]. rewrite (li_depth _ _ _ HI), (li_steps _ _ _ HI).
        destruct (pwalk_ok D E e s HE He HI D 0 l1 ltac:(lia)) as (p & Hp & Hpe).
        { cbn [Z.of_nat ptw_prob]. rewrite bb_0, Nat2Z.id. rewrite skipn_snoc, skipn_all by lia. cbn [app].
          symmetry. apply (seq_prob_run M fresh [e] s1 l1). cbn [run]. rewrite Hh, Hw, Hu1. cbn [bind].
          rewrite Rplus_0_r. reflexivity. }
        cbn [Z.of_nat Z.add] in Hp. rewrite Hp. cbn [bind]. fold t in Hpe.
        rewrite (bb_small t (Z.of_nat D)) in Hpe by lia. cbn [Z.to_nat skipn] in Hpe.
        do 2 f_equal. apply exp_inj. rewrite Hpe, Hpart. reflexivity. }
    assert (Hlen' : Z.of_nat (length (E ++ [e])) = (t + 1)%Z) by (rewrite app_length; cbn [length]; lia).
    split; cbn [lw_depth lw_steps lw_models lw_completed lw_lp]; rewrite ?Hlen'.
    - reflexivity.
    - reflexivity.
    - rewrite app_length. cbn [length]. lia.
    - apply Forall_forall. intros kv Hkv. apply Hm3 in Hkv as (Hkv & _). rewrite Forall_forall in HF2. apply HF2, Hkv.
    - exact Hnd3.
    - intros i Hi Hb. destruct (Z.le_gt_cases (Z.of_nat i) (mscb t)) as [Hle|Hgt].
      + exfalso. apply Hb. apply bb_next_low; lia.
      + rewrite bb_next by lia. specialize (Hall i Hi). apply in_map_iff in Hall as (kv & Hk & Hkv).
        apply in_map_iff. exists kv. split; [exact Hk|]. apply Hm3. split; [exact Hkv|]. intros j Hj. rewrite Hk.
        assert (Hbj : Z.testbit t (Z.of_nat j) = true) by (apply low_ones; lia).
        pose proof (bb_S t (Z.of_nat j) Ht ltac:(lia)) as HbS. rewrite Hbj in HbS.
        assert (0 < 2 ^ Z.of_nat j)%Z by (apply Z.pow_pos_nonneg; lia).
        pose proof (bb_mono t (Z.of_nat j + 1) (Z.of_nat i) Ht ltac:(lia)). lia.
    - intros k Hk. apply in_map_iff in Hk as (kv & <- & Hkv). apply Hm3 in Hkv as (Hkv & Hnot).
      assert (Hk : exists i, (i <= D + 1)%nat /\ fst kv = bb t (Z.of_nat i)).
      { apply (in_map fst) in Hkv. rewrite Hfst2, Hin1 in Hkv. destruct Hkv as [Hk|Hk].
        - exists 0%nat. split; [lia|]. cbn [Z.of_nat]. rewrite bb_0. exact Hk.
        - destruct (li_keys _ _ _ HI _ Hk) as (i & Hi & Hki). exists i. split; [lia|exact Hki]. }
      destruct Hk as (i & Hi & Hk). assert (Hcb : (mscb t <= Z.of_nat i)%Z).
      { destruct (Z.le_gt_cases (mscb t) (Z.of_nat i)) as [|Hgt]; [assumption|exfalso]. apply (Hnot i); [lia|exact Hk]. }
      destruct (Z.eq_dec (mscb t) (Z.of_nat i)) as [Heq|Hne].
      + exists (Z.to_nat (mscb t + 1)). split; [lia|]. rewrite Z2Nat.id by lia. rewrite start_next by lia.
        rewrite Heq. exact Hk.
      + exists i. split; [lia|]. rewrite bb_next by lia. exact Hk.
    - split.
      + rewrite Hl3, list_set_length. exact Hclen.
      + intros i Hi. rewrite Hc3, done_next. fold t. cbn [Nat.leb andb Nat.add].
        destruct (Z.ltb_spec (Z.of_nat i) (mscb t)) as [Hc|Hc].
        * replace (i <? Z.to_nat (mscb t))%nat with true by (symmetry; apply Nat.ltb_lt; lia).
          exists 0. split; [reflexivity|apply exp_0].
        * replace (i <? Z.to_nat (mscb t))%nat with false by (symmetry; apply Nat.ltb_ge; lia).
          destruct (Z.eqb_spec (Z.of_nat i) (mscb t)) as [Heq|Hne].
          -- exists complete. split.
             ++ replace i with (Z.to_nat (mscb t)) by lia. apply nth_error_list_set_same. lia.
             ++ rewrite Hcpl. replace (Z.to_nat (mscb t)) with i by lia. rewrite Heq. reflexivity.
          -- rewrite nth_error_list_set_other by lia. apply Hcomp, Hi.
    - exact Hpart.
  Qed.

  Lemma lptw_run D evs : Forall ok evs -> (length evs <= 2 ^ D)%nat ->
    exists s l, run (LPTW_model M fresh) (lptw_init fresh D) evs = Ok (s, l) /\ linv D evs s /\ l = lw_lp s.
  Proof.
    intros Hok. induction evs as [|e evs IH] using rev_ind; intros Hlen.
    - exists (lptw_init fresh D), 0. split; [reflexivity|]. split; [apply linv_init|reflexivity].
    - rewrite app_length in Hlen. cbn [length] in Hlen. apply Forall_app in Hok as (HE & He).
      inversion He as [|x y He' _]; subst. destruct (IH HE ltac:(lia)) as (s & l & Hr & HI & ->).
      destruct (lptw_step D evs e s HE He' HI ltac:(lia)) as (s' & l' & Hu & HI' & -> & _).
      exists s', (lw_lp s + (lw_lp s' - lw_lp s)). split; [apply (run_snoc _ _ _ _ _ _ _ _ Hr Hu)|].
      split; [exact HI'|]. lra.
  Qed.

  Lemma lptw_recursion D evs : Forall ok evs -> (length evs <= 2 ^ D)%nat ->
    exists s l, run (LPTW_model M fresh) (lptw_init fresh D) evs = Ok (s, l) /\ exp l = P D evs /\ lw_lp s = l.
  Proof.
    intros Hok Hlen. destruct (lptw_run D evs Hok Hlen) as (s & l & Hr & HI & ->).
    exists s, (lw_lp s). split; [exact Hr|]. split; [apply (li_lp _ _ _ HI)|reflexivity].
  Qed.

  Lemma lptw_agree D evs e : Forall ok evs -> ok e -> (length evs < 2 ^ D)%nat ->
    exists s l s' l', run (LPTW_model M fresh) (lptw_init fresh D) evs = Ok (s, l) /\
      lptw_update M fresh s (ev_sym e) (ev_hist e) (ev_wt e) = Ok (s', l') /\
      lptw_log_predict M fresh s (ev_sym e) (ev_hist e) = Ok l'.
  Proof.
    intros Hok He Hlen. destruct (lptw_run D evs Hok ltac:(lia)) as (s & l & Hr & HI & _).
    destruct (lptw_step D evs e s Hok He HI Hlen) as (s' & l' & Hu & _ & _ & Hp).
    exists s, l, s', l'. split; [exact Hr|]. split; [exact Hu|exact Hp].
  Qed.

  Lemma lptw_full D evs a h w : Forall ok evs -> length evs = (2 ^ D)%nat ->
    exists s l, run (LPTW_model M fresh) (lptw_init fresh D) evs = Ok (s, l) /\
      lptw_update M fresh s a h w = Err ValueError.
  Proof.
    intros Hok Hlen. destruct (lptw_run D evs Hok ltac:(lia)) as (s & l & Hr & HI & _).
    exists s, l. split; [exact Hr|]. unfold lptw_update, max_steps. rewrite (li_depth _ _ _ HI), (li_steps _ _ _ HI), Hlen.
    rewrite Nat2Z.inj_pow, Z.geb_leb. change (Z.of_nat 2) with 2%Z. rewrite Z.leb_refl. reflexivity.
  Qed.

  (** The number of base models kept. *)
  Lemma lptw_memory D evs : Forall ok evs -> (length evs <= 2 ^ D)%nat ->
    exists s l, run (LPTW_model M fresh) (lptw_init fresh D) evs = Ok (s, l) /\
      (length (lw_models s) <= D + 1)%nat.
  Proof.
    intros Hok Hlen. destruct (lptw_run D evs Hok Hlen) as (s & l & Hr & HI & _).
    exists s, l. split; [exact Hr|]. rewrite <- (map_length fst).
    replace (D + 1)%nat with (length (map (fun i => bb (Z.of_nat (length evs)) (Z.of_nat i)) (seq 1 (D + 1))))
      by (rewrite map_length, seq_length; reflexivity).
    apply NoDup_incl_length; [apply HI|]. intros k Hk. destruct (li_keys _ _ _ HI k Hk) as (i & Hi & ->).
    apply in_map_iff. exists i. split; [reflexivity|]. apply in_seq. lia.
  Qed.

  (** When no symbol can follow any more, log_predict divides the prediction of a fresh base
      model by the probability of everything seen. *)
  Lemma lptw_full_predict D evs a : Forall ok evs -> In a A -> length evs = (2 ^ D)%nat ->
    exists s l lf, run (LPTW_model M fresh) (lptw_init fresh D) evs = Ok (s, l) /\
      m_logp M fresh a [] = Ok lf /\ lptw_log_predict M fresh s a [] = Ok (lf - l).
  Proof.
    intros Hok Ha Hlen. destruct (lptw_run D evs Hok ltac:(lia)) as (s & l & Hr & HI & ->).
    destruct (HS fresh a [] 1 Hinv Ha eq_refl eq_refl) as (f' & lf & Hu & Hp & _).
    exists s, (lw_lp s), lf. split; [exact Hr|]. split; [exact Hp|].
    unfold lptw_log_predict. rewrite Hp. cbn [bind]. rewrite (li_depth _ _ _ HI), (li_steps _ _ _ HI).
    set (t := Z.of_nat (length evs)). assert (Ht : t = (2 ^ Z.of_nat D)%Z) by (unfold t; rewrite Hlen, Nat2Z.inj_pow; reflexivity).
    destruct (li_completed _ _ _ HI) as (Hcl & Hcomp).
    assert (Hw : forall k j, (j + k)%nat = D -> pwalk M fresh (lw_models s) (lw_completed s) t a k (Z.of_nat j + 1) lf = Ok lf).
    { induction k as [|k IH]; intros j Hjk; cbn [pwalk]; [reflexivity|].
      replace (Z.of_nat j + 1)%Z with (Z.of_nat (Datatypes.S j)) by lia.
      assert (Hb : bb t (Z.of_nat (Datatypes.S j)) = t).
      { rewrite boundary_mod by lia. rewrite Ht.
        replace (Z.of_nat D) with (Z.of_nat (Datatypes.S j) + Z.of_nat (D - Datatypes.S j))%Z by lia.
        rewrite Z.pow_add_r by lia. rewrite Z.mul_comm, Z.mod_mul by (apply Z.pow_nonzero; lia). lia. }
      set (v := match dict_get (lw_models s) (bb t (Z.of_nat (Datatypes.S j))) with Some v => v | None => (fresh, 0) end).
      assert (Hv : v = (fresh, 0)).
      { unfold v. rewrite Hb. destruct (dict_get (lw_models s) t) as [v0|] eqn:Eg; [|reflexivity].
        apply dict_get_in in Eg. pose proof (li_entries _ _ _ HI) as HF. rewrite Forall_forall in HF.
        destruct (HF _ Eg) as (_ & Hrun). cbn [fst snd] in Hrun. unfold t in Hrun.
        rewrite Nat2Z.id, skipn_all in Hrun. cbn [run] in Hrun. congruence. }
      rewrite Hv, Hp. cbn [bind]. replace (Z.of_nat (Datatypes.S j) - 1)%Z with (Z.of_nat j) by lia.
      destruct (Hcomp j ltac:(lia)) as (c & Hc & Hce). rewrite (py_get_nth _ _ _ Hc). cbn [bind].
      unfold done_prob in Hce. fold t in Hce. rewrite Ht, Z.pow2_bits_false in Hce by lia.
      assert (c = 0) as -> by (apply exp_inj; rewrite exp_0; exact Hce).
      rewrite h_lse_pair. cbn [bind]. rewrite <- (IH (Datatypes.S j)) by lia. f_equal.
      apply exp_inj. rewrite mix_exp, !Rplus_0_r. lra. }
    specialize (Hw D 0%nat ltac:(lia)). cbn [Z.of_nat Z.add] in Hw. rewrite Hw. reflexivity.
  Qed.
End facts.
