(** The code of a whole message against its log loss. *)
From Coq Require Import Lra.
From Verif Require Import Spec.ACSpec Spec.KTSpec Proofs.PyFacts Proofs.RealFacts Proofs.ACFacts Proofs.ACDecode Proofs.ACRound Proofs.ACModel Proofs.ACLength Proofs.ACLossless Proofs.KTRedundancy Proofs.ACOverhead.
Open Scope Z_scope.

Section far.
  Variable N : nat.
  Hypothesis HN : (2 <= N)%nat.

  Lemma half_pow : half N = 2 ^ Z.of_nat (N - 1) /\ top N = 2 ^ Z.of_nat N.
  Proof.
    split; [|reflexivity]. unfold half, top. replace (Z.of_nat N) with (Z.of_nat (N - 1) + 1) by lia.
    rewrite Z.pow_add_r by lia. change (2 ^ 1) with 2. now rewrite Z.div_mul by lia.
  Qed.

  (** An interval close to 0 or to the end is rescaled many times. *)
  Lemma low_far fuel : forall j lo hi l h f out, (j < N)%nat -> renorm N fuel lo hi 0 = Ok (l, h, f, out) ->
    0 <= lo -> hi <= 2 ^ Z.of_nat j -> (N - j <= length out)%nat.
  Proof.
    destruct half_pow as [Hh Ht].
    induction fuel as [|fuel IH]; intros j lo hi l h f out Hj E Hlo Hhi; [discriminate|].
    rewrite (renorm_step N HN) in E.
    assert (2 ^ Z.of_nat j <= half N) by (rewrite Hh; apply Z.pow_le_mono_r; lia).
    destruct (Z.leb_spec hi (half N)); [|lia].
    destruct (renorm N fuel (2 * lo) (2 * hi) 0) as [[[[l1 h1] f1] o1]|] eqn:E1; [|discriminate].
    cbn [bind] in E. injection E as <- <- <- <-. cbn [length].
    destruct (Nat.eq_dec (S j) N) as [<-|Hne]; [lia|].
    specialize (IH (S j) (2 * lo) (2 * hi) l1 h1 f1 o1 ltac:(lia) E1 ltac:(lia)).
    rewrite Nat2Z.inj_succ, Z.pow_succ_r in IH by lia. specialize (IH ltac:(lia)). lia.
  Qed.
  Lemma high_far fuel : forall j lo hi l h f out, (j < N)%nat -> renorm N fuel lo hi 0 = Ok (l, h, f, out) ->
    lo < hi -> hi <= top N -> top N - 2 ^ Z.of_nat j <= lo -> (N - j <= length out)%nat.
  Proof.
    destruct half_pow as [Hh Ht]. pose proof (bounds N HN) as (Hq & Hh2 & Ht2).
    induction fuel as [|fuel IH]; intros j lo hi l h f out Hj E Hlt Hhi Hlo; [discriminate|].
    rewrite (renorm_step N HN) in E.
    assert (2 ^ Z.of_nat j <= half N) by (rewrite Hh; apply Z.pow_le_mono_r; lia).
    destruct (Z.leb_spec hi (half N)); [lia|]. rewrite Z.geb_leb in E. destruct (Z.leb_spec (half N) lo); [|lia].
    destruct (renorm N fuel (2 * lo - top N) (2 * hi - top N) 0) as [[[[l1 h1] f1] o1]|] eqn:E1; [|discriminate].
    cbn [bind] in E. injection E as <- <- <- <-. cbn [length].
    destruct (Nat.eq_dec (S j) N) as [<-|Hne]; [lia|].
    specialize (IH (S j) (2 * lo - top N) (2 * hi - top N) l1 h1 f1 o1 ltac:(lia) E1 ltac:(lia) ltac:(lia)).
    rewrite Nat2Z.inj_succ, Z.pow_succ_r in IH by lia. specialize (IH ltac:(lia)). lia.
  Qed.

  (** Part of a short interval around the midpoint: either it is kept as it is or many bits come out. *)
  Lemma short_far k fuel low high lo hi l h f out : (k < N)%nat -> renorm N fuel lo hi 0 = Ok (l, h, f, out) ->
    low < half N < high -> high - low < 2 ^ Z.of_nat k -> low <= lo -> lo < hi -> hi <= high -> 0 <= low -> high <= top N ->
    (1 <= length out)%nat -> (N - k <= length out)%nat.
  Proof.
    intros Hk E Hm Hr H1 H2 H3 H4 H5 Ho. destruct half_pow as [Hh Ht]. pose proof (bounds N HN) as (Hq & Hh2 & Ht2).
    destruct fuel as [|fuel]; [discriminate|]. rewrite (renorm_step N HN) in E.
    destruct (Nat.eq_dec (S k) N) as [<-|Hne]; [lia|].
    destruct (Z.leb_spec hi (half N)).
    - destruct (renorm N fuel (2 * lo) (2 * hi) 0) as [[[[l1 h1] f1] o1]|] eqn:E1; [|discriminate].
      cbn [bind] in E. injection E as <- <- <- <-. cbn [length].
      assert (N - S k <= length o1)%nat; [|lia].
      apply (high_far fuel (S k) (2 * lo) (2 * hi) l1 h1 f1 o1); try lia; [exact E1|].
      rewrite Nat2Z.inj_succ, Z.pow_succ_r by lia. lia.
    - rewrite Z.geb_leb in E. destruct (Z.leb_spec (half N) lo).
      + destruct (renorm N fuel (2 * lo - top N) (2 * hi - top N) 0) as [[[[l1 h1] f1] o1]|] eqn:E1; [|discriminate].
        cbn [bind] in E. injection E as <- <- <- <-. cbn [length].
        assert (N - S k <= length o1)%nat; [|lia].
        apply (low_far fuel (S k) (2 * lo - top N) (2 * hi - top N) l1 h1 f1 o1); try lia; [exact E1|].
        rewrite Nat2Z.inj_succ, Z.pow_succ_r by lia. lia.
      + injection E as <- <- <- <-. cbn in Ho. lia.
  Qed.
End far.

Section message.
  Context {S : Type} (M : model S) (Inv : S -> Prop) (N k fuel : nat).
  Hypothesis HN : (2 <= N)%nat.
  Hypothesis Hfu : (N < fuel)%nat.
  Hypothesis HM : at_most_one M Inv.
  Hypotheses (Hk1 : (1 <= k)%nat) (HkN : (k < N)%nat) (Hkk : (N <= k * (k + 1))%nat).
  Local Notation alpha := (INR k / (INR N - INR k))%R.

  (** The share of a symbol is at most one unit less than its probability. *)
  Lemma share m b m' l r cut : 2 <= r -> is_bit b -> (l <= 0)%R -> m_update M m b [] 1%R = Ok (m', l) ->
    cm_enc (coder_of M) m b r = Ok (m', cut) -> (exp l * IZR r <= IZR (part b cut r) + 1)%R.
  Proof.
    intros Hr Hb Hl Eu Ec. unfold coder_of in Ec. cbn [cm_enc] in Ec. rewrite Eu in Ec. cbn [bind] in Ec. injection Ec as <-.
    assert (Hr' : (2 <= IZR r)%R) by now apply IZR_le.
    pose proof (exp_pos l). assert (exp l <= 1)%R.
    { rewrite <- exp_0. destruct Hl as [Hl| ->]; [left; now apply exp_increasing|right; reflexivity]. }
    unfold part. destruct Hb as [-> | ->]; cbn [Z.eqb].
    - pose proof (py_int_nonneg (IZR r * exp l) ltac:(nra)) as Hi.
      assert (IZR (py_int (IZR r * exp l)) <= IZR (Z.max 1 (py_int (IZR r * exp l))))%R by (apply IZR_le; lia). lra.
    - pose proof (py_int_nonneg (IZR r * (1 - exp l)) ltac:(nra)) as Hi. rewrite minus_IZR.
      destruct (Z.max_spec 1 (py_int (IZR r * (1 - exp l)))) as [[Hlt ->]|[Hge ->]]; [lra|]. nra.
  Qed.

  Lemma message_overhead : forall bits s s' out, Forall is_bit bits -> enc_ok N s -> Inv (en_model s) ->
    encode_all (coder_of M) N fuel s bits = Ok (s', out) ->
    let r := en_high s - en_low s in let r' := en_high s' - en_low s' in
    enc_ok N s' /\ (0 < seq_prob M (en_model s) (unit_events bits))%R /\
    (ln (seq_prob M (en_model s) (unit_events bits)) + INR (length out) * ln 2 + ln (IZR r) - ln (IZR r') + phi k r' - phi k r
     <= alpha * (INR (length out) * ln 2) + INR (length bits) * / 2 ^ k)%R.
  Proof.
    induction bits as [|b bits IH]; intros s s' out Hb Hs Hm E; cbn zeta.
    - injection E as <- <-. split; [exact Hs|]. cbn [unit_events map seq_prob length]. split; [lra|]. rewrite ln_1. cbn [INR]. lra.
    - inversion_clear Hb as [|? ? Hb1 Hb2]. cbn [encode_all] in E.
      destruct (encode (coder_of M) N fuel s b) as [[s1 o1]|] eqn:E1; [|discriminate]. cbn [bind] in E.
      destruct (encode_all (coder_of M) N fuel s1 bits) as [[s2 o2]|] eqn:E2; [|discriminate].
      cbn in E. injection E as <- <-.
      destruct (encode_range M Inv N fuel HN Hfu HM s b s1 o1 Hs Hm Hb1 E1) as (m' & cut & Ec & Hs1 & Hm1 & Hp & Hr).
      destruct (IH s1 s2 o2 Hb2 Hs1 Hm1 E2) as (Hs2 & Hpos & Hle).
      destruct (encode_inv _ _ _ _ _ _ _ E1) as (m2 & c2 & Ec2 & Em & Er).
      rewrite Ec in Ec2. injection Ec2 as <- <-.
      pose proof Hs as [[Hlo Hhi] Hfol].
      set (r := en_high s - en_low s) in *.
      assert (H2r : 2 <= r) by lia.
      pose proof Ec as Ec0. unfold coder_of in Ec0. cbn [cm_enc] in Ec0.
      destruct (m_update M (en_model s) b [] 1%R) as [[m3 l]|] eqn:Eu; [|discriminate].
      cbn [bind] in Ec0. injection Ec0 as <- Ecut.
      destruct (HM _ _ _ _ Hm Hb1 Eu) as [Hl _].
      pose proof (share (en_model s) b m3 l r cut H2r Hb1 Hl Eu Ec) as Hsh.
      assert (He1 : (exp l <= 1)%R).
      { rewrite <- exp_0. destruct Hl as [Hl| ->]; [left; now apply exp_increasing|right; reflexivity]. }
      pose proof (exp_pos l) as He0.
      assert (Hfar : r < 2 ^ Z.of_nat k -> (1 <= length o1)%nat -> (N - k <= length o1)%nat).
      { intros Hsm Ho. rewrite Hfol in Er.
        apply (short_far N HN k fuel (en_low s) (en_high s) _ _ _ _ _ _ HkN Er); try lia; try exact Ho;
          unfold part in Hp; destruct (b =? 0); lia. }
      pose proof (symbol_overhead N k Hk1 HkN Hkk r (part b cut r) (length o1) (exp l) Hp (conj He0 He1) Hsh Hfar) as Hstep.
      split; [exact Hs2|].
      cbn [unit_events map seq_prob ev_sym ev_hist ev_wt]. fold (unit_events bits). rewrite Eu. rewrite Em in Hpos, Hle.
      split; [apply Rmult_lt_0_compat; assumption|].
      rewrite ln_mult by assumption. rewrite app_length, plus_INR. cbn [length]. rewrite (S_INR (length bits)).
      rewrite Hr in Hle.
      assert (Hlw : (ln (IZR (part b cut r * 2 ^ Z.of_nat (length o1))) = ln (IZR (part b cut r)) + INR (length o1) * ln 2)%R).
      { rewrite mult_IZR, IZR_p2. rewrite ln_mult; [|apply IZR_lt; lia|apply pow2_pos]. now rewrite ln_pow by lra. }
      rewrite Hlw in Hle. lra.
  Qed.

  Lemma code_redundancy m bits code : Inv m -> Forall is_bit bits ->
    compress (coder_of M) N fuel m bits = Ok code ->
    (0 < seq_prob M m (unit_events bits))%R /\
    ((INR N - 2 * INR k) * (INR (length code) - 2) <=
     (INR N - INR k) * (- ln (seq_prob M m (unit_events bits)) / ln 2 + INR (length bits) / (2 ^ k * ln 2) + INR k))%R.
  Proof.
    intros Hm Hb E.
    destruct (compress_inv _ _ _ _ _ _ E) as (s' & out & E' & ->).
    destruct (message_overhead bits (enc_init N m) s' out Hb (enc_init_ok N HN m) Hm E') as (Hs' & Hpos & Hle).
    cbn [enc_init en_low en_high en_model] in *. rewrite Z.sub_0_r in Hle. split; [exact Hpos|].
    rewrite app_length, (flush_len (coder_of M) N HN fuel m bits s' out E'), plus_INR. change (INR 2) with 2%R.
    set (P := seq_prob M m (unit_events bits)) in *. set (r' := en_high s' - en_low s') in *.
    assert (H2 : 2 <= r' <= top N) by (destruct Hs' as [[? ?] _]; unfold r'; lia).
    assert (Hph : (0 <= phi k r')%R) by (refine (proj1 (phi_le N k Hk1 HkN Hkk r' _)); lia).
    assert (Hpt : phi k (top N) = (INR k * ln 2)%R) by (apply phi_big; unfold top; apply Z.pow_le_mono_r; lia).
    assert (Hll : (ln (IZR r') <= ln (IZR (top N)))%R) by (apply ln_le; [apply IZR_lt; lia|apply IZR_le; lia]).
    pose proof (NK N k HkN) as HNK. pose proof ln2_pos as Hg. pose proof (pow2_pos k) as H2k.
    assert (Hmain : ((1 - alpha) * (INR (length out) * ln 2) <= - ln P + INR (length bits) * / 2 ^ k + INR k * ln 2)%R) by lra.
    apply Rmult_le_reg_r with (ln 2); [exact Hg|].
    replace ((INR N - INR k) * (- ln P / ln 2 + INR (length bits) / (2 ^ k * ln 2) + INR k) * ln 2)%R
      with ((INR N - INR k) * (- ln P + INR (length bits) * / 2 ^ k + INR k * ln 2))%R by (field; lra).
    replace ((INR N - 2 * INR k) * (INR (length out) + 2 - 2) * ln 2)%R
      with ((INR N - INR k) * ((1 - alpha) * (INR (length out) * ln 2)))%R by (field; lra).
    apply Rmult_le_compat_l; lra.
  Qed.
End message.
