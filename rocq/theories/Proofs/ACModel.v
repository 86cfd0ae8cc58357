(** The arithmetic coder with a lawful model over the alphabet {0, 1}. *)
From Coq Require Import Lra.
From Verif Require Import Spec.ACSpec Proofs.PyFacts Proofs.RealFacts Proofs.ACFacts Proofs.ACDecode Proofs.ACRound.
Open Scope Z_scope.

Lemma Int_part_spec x z : (IZR z <= x < IZR z + 1)%R -> Int_part x = z.
Proof.
  intros [H1 H2]. unfold Int_part. rewrite <- (tech_up x (z + 1)); [lia| |].
  - rewrite plus_IZR. lra.
  - rewrite plus_IZR. lra.
Qed.

Lemma py_int_nonneg x : (0 <= x)%R -> (IZR (py_int x) <= x < IZR (py_int x) + 1)%R.
Proof.
  intros H. unfold py_int. destruct (Rle_dec 0 x); [|easy].
  destruct (base_Int_part x). lra.
Qed.

Lemma py_int_lower x : (0 <= x)%R -> 0 <= py_int x.
Proof.
  intros H. pose proof (py_int_nonneg x H). apply Z.lt_succ_r.
  apply lt_IZR. rewrite succ_IZR. lra.
Qed.

Lemma py_int_ge x z : (IZR z <= x)%R -> 0 <= z -> z <= py_int x.
Proof.
  intros H Hz. assert (0 <= x)%R by (apply Rle_trans with (IZR z); [now apply IZR_le|easy]).
  pose proof (py_int_nonneg x H0). apply Z.lt_succ_r.
  apply lt_IZR. rewrite succ_IZR. lra.
Qed.

Lemma py_int_lt x z : (0 <= x)%R -> (x < IZR z)%R -> py_int x < z.
Proof. intros H Hz. pose proof (py_int_nonneg x H). apply lt_IZR. lra. Qed.

Lemma py_int_le x z : (0 <= x)%R -> (x <= IZR z)%R -> py_int x <= z.
Proof. intros H Hz. pose proof (py_int_nonneg x H). apply le_IZR. lra. Qed.

Section lawful_coder.
  Context {S : Type} (M : model S) (Inv : S -> Prop).
  Variables (okh : list Z -> Prop) (okw : R -> Prop).
  Hypothesis Hlaw : lawful M [0; 1] okh okw Inv.
  Hypotheses (Hokh : okh []) (Hokw : okw 1%R).

  Definition p0 (m : S) : R := pred_prob M m 0 [].

  Lemma p0_range m : Inv m -> (0 < p0 m < 1)%R /\ pred_prob M m 1 [] = (1 - p0 m)%R.
  Proof.
    intros Hm. pose proof (law_norm _ _ _ _ _ Hlaw m [] Hm Hokh) as Hn. cbn in Hn.
    destruct (law_step _ _ _ _ _ Hlaw m 0 [] 1%R Hm ltac:(now left) Hokh Hokw) as (s1 & l0 & _ & E0 & _).
    destruct (law_step _ _ _ _ _ Hlaw m 1 [] 1%R Hm ltac:(right; now left) Hokh Hokw) as (s2 & l1 & _ & E1 & _).
    unfold p0 in *. unfold pred_prob in *. rewrite E0, E1 in *.
    pose proof (exp_pos l0). pose proof (exp_pos l1). split; lra.
  Qed.

  (** Encoder and decoder compute the same split, up to the encoder's [max(1, ...)]. *)
  Lemma coder_same m b r : Inv m -> is_bit b ->
    exists m', Inv m' /\ cm_enc (coder_of M) m b r = Ok (m', Z.max 1 (py_int (IZR r * p0 m))) /\
      cm_dec (coder_of M) m r = Ok (py_int (IZR r * p0 m)) /\ cm_upd (coder_of M) m b = Ok m'.
  Proof.
    intros Hm Hb.
    assert (HbA : In b [0; 1]) by (destruct Hb as [-> | ->]; cbn; auto).
    destruct (law_step _ _ _ _ _ Hlaw m b [] 1%R Hm HbA Hokh Hokw) as (m' & l & Eu & El & Hm').
    destruct (law_step _ _ _ _ _ Hlaw m 0 [] 1%R Hm ltac:(now left) Hokh Hokw) as (s1 & l0 & _ & E0 & _).
    destruct (p0_range m Hm) as [_ Hp1].
    exists m'. split; [exact Hm'|]. unfold coder_of. cbn [cm_enc cm_dec cm_upd].
    rewrite Eu, E0. cbn [bind].
    assert (Hp0 : p0 m = exp l0) by (unfold p0, pred_prob; now rewrite E0).
    split; [|split; [now rewrite Hp0|reflexivity]].
    do 5 f_equal. destruct Hb as [-> | ->]; cbn.
    - rewrite El in E0. injection E0 as <-. now symmetry.
    - unfold pred_prob in Hp1. rewrite El in Hp1. lra.
  Qed.

  Lemma cut_bounds m r : Inv m -> 2 <= r -> 0 <= py_int (IZR r * p0 m) < r.
  Proof.
    intros Hm Hr. destruct (p0_range m Hm) as [Hp _].
    assert (Hr' : (2 <= IZR r)%R) by (now apply IZR_le).
    split; [apply py_int_lower; nra|apply py_int_lt; nra].
  Qed.

  Context (N : nat).
  Hypothesis HN : (2 <= N)%nat.

  Lemma precise_path fuel : forall bits s, Forall is_bit bits -> Inv (en_model s) -> enc_ok N s ->
    precise M N fuel s bits -> path_ok (coder_of M) N fuel s bits.
  Proof.
    induction bits as [|b bits IH]; intros s Hb Hm Hs Hp; [exact I|].
    inversion_clear Hb as [|? ? Hb1 Hb2]. cbn [precise path_ok] in *. destruct Hp as [Hp1 Hp2].
    split; [exact Hb1|].
    set (r := en_high s - en_low s) in *.
    assert (Hr : 2 <= r) by (destruct Hs as [[? ?] ?]; lia).
    destruct (coder_same (en_model s) b r Hm Hb1) as (m' & Hm' & Ee & Ed & Eu).
    pose proof (cut_bounds _ _ Hm Hr) as Hc.
    assert (H1 : 1 <= py_int (IZR r * p0 (en_model s))) by (apply py_int_ge; [exact Hp1|lia]).
    exists m', (py_int (IZR r * p0 (en_model s))).
    split; [rewrite Ee; do 2 f_equal; lia|]. split; [exact Ed|]. split; [exact Eu|]. split; [lia|].
    intros s' out E. apply IH; try assumption; [| |now apply Hp2 with out].
    - destruct (encode_inv _ _ _ _ _ _ _ E) as (m1 & c1 & Ec & Hm1 & _).
      fold r in Ec. rewrite Ee in Ec. injection Ec as <- _. rewrite Hm1. exact Hm'.
    - destruct (encode_inv _ _ _ _ _ _ _ E) as (m1 & c1 & Ec & Hm1 & Er).
      fold r in Ec. rewrite Ee in Ec. injection Ec as <- <-.
      destruct Hs as [[Hl Hh] Hf]. rewrite Hf in Er.
      split.
      + eapply (renorm_straddles N HN); [exact Er| |]; destruct (b =? 0); lia.
      + apply (renorm_bits N HN) in Er. apply Er.
  Qed.

  (** The encoder succeeds on every message. *)
  Lemma encode_all_ok fuel : (N < fuel)%nat -> forall bits s, Forall is_bit bits -> Inv (en_model s) -> enc_ok N s ->
    exists s' out, encode_all (coder_of M) N fuel s bits = Ok (s', out) /\ Inv (en_model s') /\ enc_ok N s'.
  Proof.
    intros Hfu. induction bits as [|b bits IH]; intros s Hb Hm Hs.
    - exists s, []. auto.
    - inversion_clear Hb as [|? ? Hb1 Hb2]. pose proof Hs as [[Hl Hh] Hf].
      set (r := en_high s - en_low s) in *.
      assert (Hr : 2 <= r) by lia.
      destruct (coder_same (en_model s) b r Hm Hb1) as (m' & Hm' & Ee & Ed & Eu).
      pose proof (cut_bounds _ _ Hm Hr) as Hc.
      destruct (encode_ok (coder_of M) N HN fuel s b m' _ Hs Hfu Ee) as (s1 & o1 & E1 & Hs1 & Hm1 & _).
      { fold r. unfold part. destruct Hb1 as [-> | ->]; cbn; lia. }
      { fold r. lia. }
      cbn [encode_all]. rewrite E1. cbn [bind].
      destruct (IH s1 Hb2 ltac:(now rewrite Hm1) Hs1) as (s2 & o2 & E2 & Hi & Hs2).
      rewrite E2. cbn [bind]. exists s2, (o1 ++ o2). auto.
  Qed.

  Lemma loop_term (value rmin : Z) :
    (forall low high, low < half N < high -> 0 <= low <= value -> value < high <= top N -> rmin <= high - low) ->
    (forall m r, Inv m -> rmin <= r <= top N -> 1 <= py_int (IZR r * p0 m) < r) ->
    forall f m low high, Inv m -> 0 <= low <= value -> value < high <= top N -> high - low < Z.of_nat f ->
      is_ok (decode_loop (coder_of M) N f m low high value).
  Proof.
    intros Hrmin Hcut. induction f as [|f IH]; intros m low high Hm Hl Hh Hf; [lia|].
    destruct (Z_lt_ge_dec low (half N)) as [H1|H1].
    2: { rewrite (loop_apart _ _ HN) by (right; lia). eexists. reflexivity. }
    destruct (Z_lt_ge_dec (half N) high) as [H2|H2].
    2: { rewrite (loop_apart _ _ HN) by (left; lia). eexists. reflexivity. }
    pose proof (Hrmin low high ltac:(lia) Hl Hh) as Hr.
    specialize (Hcut m (high - low) Hm ltac:(lia)). set (cut := py_int _) in Hcut.
    destruct (Z_lt_ge_dec value (low + cut)) as [H3|H3].
    - destruct (coder_same m 0 (high - low) Hm ltac:(now left)) as (m' & Hm' & _ & Ed & Eu).
      rewrite (decode_loop_straddle _ _ HN f m low high value _ m' 0 ltac:(lia) Ed Eu) by (left; subst cut; lia).
      cbn [Z.eqb]. fold cut.
      destruct (IH m' low (low + cut) Hm') as [[[[m1 l1] h1] o1] ->]; try lia. eexists. reflexivity.
    - destruct (coder_same m 1 (high - low) Hm ltac:(now right)) as (m' & Hm' & _ & Ed & Eu).
      rewrite (decode_loop_straddle _ _ HN f m low high value _ m' 1 ltac:(lia) Ed Eu) by (right; subst cut; lia).
      cbn [Z.eqb]. fold cut.
      destruct (IH m' (low + cut) high Hm') as [[[[m1 l1] h1] o1] ->]; try lia. eexists. reflexivity.
  Qed.

  Lemma compress_inv fuel m bits code : compress (coder_of M) N fuel m bits = Ok code ->
    exists s' out, encode_all (coder_of M) N fuel (enc_init N m) bits = Ok (s', out) /\
      code = out ++ enc_flush N s'.
  Proof.
    unfold compress. destruct (encode_all _ _ _ _ _) as [[s' out]|]; [|discriminate].
    intros [= <-]. eauto.
  Qed.

  Lemma working_ok (s : @enc S) : enc_ok N s <-> working N s /\ en_follow s = 0%nat.
  Proof.
    unfold enc_ok, working, straddles. pose proof (bounds N HN) as (Hq & Hh & Ht).
    assert (Hp1 : 2 ^ Z.of_nat (N - 1) = half N).
    { unfold half, top. replace (Z.of_nat N) with (Z.of_nat (N - 1) + 1) by lia.
      rewrite Z.pow_add_r by lia. change (2 ^ 1) with 2. rewrite Z.div_mul by lia. reflexivity. }
    rewrite Hp1. change (2 ^ Z.of_nat N) with (top N). tauto.
  Qed.
End lawful_coder.

(** C34: nothing but the message comes out. *)
Lemma round_trip_safe {S} (M : model S) Inv okh okw N fuel m bits code :
  lawful M [0; 1] okh okw Inv -> okh [] -> okw 1%R -> (3 <= N)%nat ->
  Inv m -> Forall is_bit bits -> precise M N fuel (enc_init N m) bits ->
  compress (coder_of M) N fuel m bits = Ok code ->
  forall rounds fuel' r,
    decompress (coder_of M) N rounds fuel' m code (Z.of_nat (length bits)) = Ok r -> r = bits.
Proof.
  intros Hlaw Hh Hw HN Hm Hb Hp E rounds fuel' r Er.
  destruct (compress_inv _ _ _ _ _ _ E) as (s' & out & E' & ->).
  eapply (decompress_safe (coder_of M) N ltac:(lia) fuel); try eassumption.
  eapply precise_path; eauto; [lia|]. apply enc_init_ok. lia.
Qed.

(** C34: and the message does come out when the model is not extreme and the code ends in 01. *)
Lemma round_trip_ok {S} (M : model S) Inv okh okw N fuel m bits code pre :
  lawful M [0; 1] okh okw Inv -> okh [] -> okw 1%R -> (3 <= N)%nat ->
  (forall m, Inv m -> / 2 ^ (N - 2) <= pred_prob M m 0 [] <= 1 - / 2 ^ (N - 2))%R ->
  Inv m -> Forall is_bit bits -> precise M N fuel (enc_init N m) bits ->
  compress (coder_of M) N fuel m bits = Ok code -> code = pre ++ [0; 1] ->
  exists F, forall rounds fuel', (N <= rounds)%nat -> (F <= fuel')%nat ->
    decompress (coder_of M) N rounds fuel' m code (Z.of_nat (length bits)) = Ok bits.
Proof.
  intros Hlaw Hh Hw HN Hp0 Hm Hb Hp E Hcode.
  assert (HN2 : (2 <= N)%nat) by lia.
  pose proof (bounds N HN2) as (Hq & Hhalf & Htop).
  destruct (compress_inv _ _ _ _ _ _ E) as (s' & out & E' & ->).
  assert (Hpath : path_ok (coder_of M) N fuel (enc_init N m) bits).
  { eapply precise_path; eauto. apply enc_init_ok. lia. }
  pose proof (end_follow (coder_of M) N HN2 fuel m bits s' out E') as Hf0.
  assert (Hlow : en_low s' < q1_4 N).
  { unfold enc_flush in Hcode. rewrite Hf0 in Hcode.
    destruct (Z.ltb_spec (en_low s') (q1_4 N)); [assumption|].
    cbn in Hcode. change [1; 0] with ([1] ++ [0]) in Hcode. change [0; 1] with ([0] ++ [1]) in Hcode.
    rewrite !app_assoc in Hcode. apply app_inj_tail in Hcode. destruct Hcode; discriminate. }
  assert (Hinv : Inv (en_model s') /\ enc_ok N s').
  { clear - E' Hlaw Hh Hw Hm Hb HN2.
    assert (Hgen : forall bits s s' out, Forall is_bit bits -> Inv (en_model s) -> enc_ok N s ->
      encode_all (coder_of M) N fuel s bits = Ok (s', out) -> Inv (en_model s') /\ enc_ok N s').
    { clear - Hlaw Hh Hw HN2. induction bits as [|b bits IH]; intros s s' out Hb Hm Hs E.
      - injection E as <- <-. auto.
      - cbn [encode_all] in E. destruct (encode (coder_of M) N fuel s b) as [[s1 o1]|] eqn:E1; [|discriminate].
        cbn [bind] in E. destruct (encode_all (coder_of M) N fuel s1 bits) as [[s2 o2]|] eqn:E2; [|discriminate].
        cbn in E. injection E as <- <-. inversion_clear Hb as [|? ? Hb1 Hb2].
        destruct (encode_inv _ _ _ _ _ _ _ E1) as (m1 & c1 & Ec & Hm1 & Er).
        destruct (coder_same M Inv okh okw Hlaw Hh Hw (en_model s) b (en_high s - en_low s) Hm Hb1)
          as (m' & Hm' & Ee & _). rewrite Ee in Ec. injection Ec as <- <-.
        pose proof Hs as [[Hl Hhi] Hf]. rewrite Hf in Er.
        pose proof (cut_bounds M Inv okh okw Hlaw Hh Hw (en_model s) (en_high s - en_low s) Hm ltac:(lia)).
        apply (IH s1 s2 o2); try assumption; [now rewrite Hm1|]. split.
        + eapply (renorm_straddles N HN2); [exact Er| |]; destruct (b =? 0); lia.
        + apply (renorm_bits N HN2) in Er. apply Er. }
    apply (Hgen bits (enc_init N m) s' out); try assumption. apply enc_init_ok. assumption. }
  destruct Hinv as [Hm' Hs']. pose proof Hs' as [[Hl1 Hl2] _].
  set (F := Z.to_nat (top N + 1)).
  exists (length bits + F)%nat. intros rounds fuel' Hr Hf.
  eapply (decompress_term (coder_of M) N HN2 fuel) with (F := F); try eassumption.
  destruct (Z.ltb_spec (en_low s') (q1_4 N)); [|lia].
  eapply (loop_term M Inv okh okw Hlaw Hh Hw N HN2 (q1_4 N) (q1_4 N + 1)); try assumption; try lia.
  intros m1 r Hm1 Hr1. specialize (Hp0 m1 Hm1). unfold p0.
  assert (Hpow : IZR (q1_4 N) = (2 ^ (N - 2))%R).
  { rewrite pow_IZR. f_equal. change 4 with (2 ^ 2) in Htop.
    unfold top in Htop. replace (Z.of_nat N) with (Z.of_nat (N - 2) + 2) in Htop by lia.
    rewrite Z.pow_add_r in Htop by lia. lia. }
  rewrite <- Hpow in Hp0.
  assert (Hr2 : (IZR (q1_4 N) + 1 <= IZR r)%R) by (rewrite <- plus_IZR; apply IZR_le; lia).
  assert (Hq1 : (1 <= IZR (q1_4 N))%R) by (now apply IZR_le).
  assert (Hi : (IZR (q1_4 N) * / IZR (q1_4 N) = 1)%R) by (field; lra).
  assert (Hip : (0 < / IZR (q1_4 N))%R) by (apply Rinv_0_lt_compat; lra).
  assert (Hge : (1 <= IZR r * / IZR (q1_4 N))%R) by nra.
  split.
  - apply py_int_ge; [|lia]. nra.
  - apply py_int_lt; nra.
Qed.
