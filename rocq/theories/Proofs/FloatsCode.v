(** The size of the arithmetic code when floats round. *)
From Coq Require Import Lra.
From Verif Require Import Spec.FloatsCodeSpec Spec.ACSpec Spec.KTSpec Proofs.PyFacts Proofs.RealFacts Proofs.ACFacts Proofs.ACDecode Proofs.ACRound Proofs.ACModel Proofs.ACLength Proofs.ACLossless Proofs.KTRedundancy Proofs.ACOverhead Proofs.ACRedundancy.
Open Scope Z_scope.

Section code.
  Context (F : floats) (mul : R -> R -> R) (u big : R) (max : nat).
  Hypothesis HF : accurate F u big max.
  Hypothesis Hu : (0 <= u)%R.
  Hypothesis Hbig : (1 <= big)%R.
  Context {S : Type} (M : model S) (N k fuel : nat).
  Hypothesis Hmul : multiplies mul u (2 ^ N).
  Hypothesis HN : (2 <= N)%nat.
  Hypothesis Hfu : (N < fuel)%nat.
  Hypotheses (Hk1 : (1 <= k)%nat) (HkN : (k < N)%nat) (Hkk : (N <= k * (k + 1))%nat).
  Variable d : R.
  Hypothesis Hd : (4 * u < d)%R.
  Local Notation alpha := (INR k / (INR N - INR k))%R.
  Local Notation C := (fp_coder_of F mul M).

  Lemma fp_cut m b m' l r : 2 <= r <= top N -> is_bit b -> m_update M m b [] 1%R = Ok (m', l) -> (d <= exp l <= 1 - d)%R ->
    exists cut, cm_enc C m b r = Ok (m', cut) /\ 1 <= part b cut r <= r /\ 0 <= cut <= r /\
      ((exp l - 4 * u) * IZR r <= IZR (part b cut r) + 1)%R.
  Proof.
    intros Hr Hb Eu Hl. unfold fp_coder_of. cbn [cm_enc]. rewrite Eu. cbn [bind]. eexists. split; [reflexivity|].
    assert (Hr2 : (2 <= IZR r)%R) by (apply IZR_le; lia).
    assert (Hrt : (IZR r <= 2 ^ N)%R).
    { rewrite <- IZR_p2. apply IZR_le. unfold top in Hr. lia. }
    assert (Hl0 : (l <= 0)%R). { destruct (Rle_lt_dec l 0) as [|H]; [assumption|]. apply exp_increasing in H. rewrite exp_0 in H. lra. }
    destruct (acc_exp _ _ _ _ HF l Hl0) as [Pe He]. set (pe := f_exp F l) in *. set (p := exp l) in *.
    assert (He' : (p - u <= pe <= p + u)%R) by (split; [pose proof (Rabs_def2 (pe - p) (u + 1)) | ]; unfold Rabs in He; destruct (Rcase_abs _) in He; lra).
    destruct Hb as [-> | ->]; cbn [Z.eqb]; unfold part; cbn [Z.eqb].
    - pose proof (Hmul (IZR r) pe ltac:(lra) ltac:(lra)) as Hm. set (z := mul (IZR r) pe) in *.
      assert (Hz : (IZR r * (pe - u) <= z <= IZR r * (pe + u))%R) by (unfold Rabs in Hm; destruct (Rcase_abs _) in Hm; nra).
      assert (Z0 : (0 <= z)%R) by nra. assert (Z1 : (z <= IZR r)%R) by nra.
      pose proof (py_int_nonneg z Z0) as Hi. assert (Hle : py_int z <= r) by now apply py_int_le.
      assert (IZR (py_int z) <= IZR (Z.max 1 (py_int z)))%R by (apply IZR_le; lia).
      split; [lia|]. split; [lia|]. assert ((p - 4 * u) * IZR r <= z)%R by nra. lra.
    - pose proof (acc_sub _ _ _ _ HF 1 pe) as Hs. assert (Ha : (Rabs (1 - pe) = 1 - pe)%R) by (apply Rabs_right; lra).
      rewrite Ha in Hs. specialize (Hs ltac:(lra)). set (y := f_sub F 1 pe) in *.
      assert (Hs1 : (u * (1 - pe) <= u * 1)%R) by (apply Rmult_le_compat_l; lra).
      assert (Hy : (1 - p - 2 * u <= y <= 1 - p + 2 * u)%R) by (unfold Rabs in Hs; destruct (Rcase_abs _) in Hs; lra).
      pose proof (Hmul (IZR r) y ltac:(lra) ltac:(lra)) as Hm. set (z := mul (IZR r) y) in *.
      assert (Hz : (IZR r * (y - u) <= z <= IZR r * (y + u))%R) by (unfold Rabs in Hm; destruct (Rcase_abs _) in Hm; nra).
      assert (Z0 : (0 <= z)%R) by nra. assert (Z1 : (z < IZR r)%R) by nra.
      pose proof (py_int_nonneg z Z0) as Hi. assert (Hle : 0 <= py_int z < r) by (split; [now apply py_int_lower|now apply py_int_lt]).
      split; [lia|]. split; [lia|]. rewrite minus_IZR.
      assert (Hz2 : ((p - 4 * u) * IZR r <= IZR r - z)%R) by nra.
      destruct (Z.max_spec 1 (py_int z)) as [[Hlt ->]|[Hge ->]]; [lra|]. nra.
  Qed.

  Lemma fp_message : forall bits s, enc_ok N s -> undecided M d (en_model s) bits ->
    exists s' out, encode_all C N fuel s bits = Ok (s', out) /\ enc_ok N s' /\
    let r := en_high s - en_low s in let r' := en_high s' - en_low s' in
    (0 < seq_prob M (en_model s) (unit_events bits))%R /\
    (ln (seq_prob M (en_model s) (unit_events bits)) + INR (length out) * ln 2 + ln (IZR r) - ln (IZR r') + phi k r' - phi k r
     <= alpha * (INR (length out) * ln 2) + INR (length bits) * (/ 2 ^ k + split_loss u d))%R.
  Proof.
    induction bits as [|b bits IH]; intros s Hs Hun; cbn zeta.
    - exists s, []. split; [reflexivity|]. split; [exact Hs|]. cbn [unit_events map seq_prob length]. split; [lra|]. rewrite ln_1. cbn [INR]. lra.
    - destruct Hun as (Hb & m' & l & Eu & Hl & Hun).
      pose proof Hs as [[Hlo Hhi] Hfol]. set (r := en_high s - en_low s) in *.
      pose proof (bounds N HN) as (Hq & Hh & Ht).
      assert (H2r : 2 <= r <= top N) by (unfold r; lia).
      destruct (fp_cut (en_model s) b m' l r H2r Hb Eu Hl) as (cut & Ec & Hp & Hc & Hsh).
      destruct (encode_ok C N HN fuel s b m' cut Hs Hfu Ec ltac:(fold r; lia) Hc) as (s1 & o1 & E1 & Hs1 & Em & _ & _ & Hr). fold r in Hr.
      destruct (IH s1 Hs1 ltac:(rewrite Em; exact Hun)) as (s2 & o2 & E2 & Hs2 & Hpos & Hle). cbn zeta in Hle.
      exists s2, (o1 ++ o2). split; [cbn [encode_all]; rewrite E1; cbn [bind]; rewrite E2; reflexivity|]. split; [exact Hs2|].
      destruct (encode_inv _ _ _ _ _ _ _ E1) as (m2 & c2 & Ec2 & _ & Er). fold r in Ec2. rewrite Ec in Ec2. injection Ec2 as <- <-.
      pose proof (exp_pos l) as He0. set (p := exp l) in *.
      assert (Hfar : r < 2 ^ Z.of_nat k -> (1 <= length o1)%nat -> (N - k <= length o1)%nat).
      { intros Hsm Ho. rewrite Hfol in Er.
        apply (short_far N HN k fuel (en_low s) (en_high s) _ _ _ _ _ _ HkN Er); try lia; try exact Ho;
          unfold part in Hp; destruct (b =? 0); lia. }
      pose proof (symbol_overhead N k Hk1 HkN Hkk r (part b cut r) (length o1) (p - 4 * u) Hp ltac:(lra) Hsh Hfar) as Hstep.
      assert (Hln : (ln p <= ln (p - 4 * u) + split_loss u d)%R).
      { assert (Hx : (0 <= 4 * u / (p - 4 * u))%R) by (apply Rmult_le_pos; [lra|left; apply Rinv_0_lt_compat; lra]).
        assert (Hy : (4 * u / (p - 4 * u) <= split_loss u d)%R).
        { unfold split_loss. apply Rmult_le_compat_l; [lra|]. apply Rinv_le_contravar; lra. }
        assert (Hz : (ln p = ln (p - 4 * u) + ln (1 + 4 * u / (p - 4 * u)))%R).
        { rewrite <- ln_mult by lra. f_equal. field. lra. }
        destruct (Req_dec u 0) as [U0|U0].
        - rewrite Hz, U0. replace (1 + 4 * 0 / (p - 4 * 0))%R with 1%R by (field; lra). rewrite ln_1. unfold split_loss. replace (4 * 0 / (d - 4 * 0))%R with 0%R by (field; lra). lra.
        - pose proof (ln_below (4 * u / (p - 4 * u)) ltac:(apply Rdiv_lt_0_compat; lra)). lra. }
      cbn [unit_events map seq_prob ev_sym ev_hist ev_wt]. fold (unit_events bits). rewrite Eu. rewrite Em in Hpos, Hle.
      split; [apply Rmult_lt_0_compat; assumption|].
      rewrite ln_mult by assumption. rewrite app_length, plus_INR. cbn [length]. rewrite (S_INR (length bits)). fold p.
      rewrite Hr in Hle.
      assert (Hlw : (ln (IZR (part b cut r * 2 ^ Z.of_nat (length o1))) = ln (IZR (part b cut r)) + INR (length o1) * ln 2)%R).
      { rewrite mult_IZR, IZR_p2. rewrite ln_mult; [|apply IZR_lt; lia|apply pow2_pos]. now rewrite ln_pow by lra. }
      rewrite Hlw in Hle. lra.
  Qed.

  Lemma fp_redundancy m bits : undecided M d m bits -> exists code,
    compress C N fuel m bits = Ok code /\ (0 < seq_prob M m (unit_events bits))%R /\
    ((INR N - 2 * INR k) * (INR (length code) - 2) <=
     (INR N - INR k) * ((- ln (seq_prob M m (unit_events bits)) + INR (length bits) * (/ 2 ^ k + split_loss u d)) / ln 2 + INR k))%R.
  Proof.
    intros Hm.
    destruct (fp_message bits (enc_init N m) (enc_init_ok N HN m) Hm) as (s' & out & E' & Hs' & Hpos & Hle). cbn zeta in *.
    cbn [enc_init en_low en_high en_model] in *. rewrite Z.sub_0_r in Hle.
    eexists. split; [unfold compress; rewrite E'; reflexivity|]. split; [exact Hpos|].
    rewrite app_length, (flush_len C N HN fuel m bits s' out E'), plus_INR. change (INR 2) with 2%R.
    set (P := seq_prob M m (unit_events bits)) in *. set (r' := en_high s' - en_low s') in *.
    assert (H2 : 2 <= r' <= top N) by (destruct Hs' as [[? ?] _]; unfold r'; lia).
    assert (Hph : (0 <= phi k r')%R) by (refine (proj1 (phi_le N k Hk1 HkN Hkk r' _)); lia).
    assert (Hpt : phi k (top N) = (INR k * ln 2)%R) by (apply phi_big; unfold top; apply Z.pow_le_mono_r; lia).
    assert (Hll : (ln (IZR r') <= ln (IZR (top N)))%R) by (apply ln_le; [apply IZR_lt; lia|apply IZR_le; lia]).
    pose proof (NK N k HkN) as HNK. pose proof ln2_pos as Hg.
    set (B := (INR (length bits) * (/ 2 ^ k + split_loss u d))%R) in *.
    assert (Hmain : ((1 - alpha) * (INR (length out) * ln 2) <= - ln P + B + INR k * ln 2)%R) by lra.
    apply Rmult_le_reg_r with (ln 2); [exact Hg|].
    replace ((INR N - INR k) * ((- ln P + B) / ln 2 + INR k) * ln 2)%R
      with ((INR N - INR k) * (- ln P + B + INR k * ln 2))%R by (field; lra).
    replace ((INR N - 2 * INR k) * (INR (length out) + 2 - 2) * ln 2)%R
      with ((INR N - INR k) * ((1 - alpha) * (INR (length out) * ln 2)))%R by (field; lra).
    apply Rmult_le_compat_l; lra.
  Qed.
End code.
