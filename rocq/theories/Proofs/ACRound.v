(** Decompressing what was compressed. *)
From Verif Require Import Model.AC Proofs.PyFacts Proofs.ACFacts Proofs.ACDecode.
Open Scope Z_scope.

Lemma prefix_length (l l' : list Z) : prefix l l' -> (length l <= length l')%nat.
Proof. intros [t ->]. rewrite app_length. lia. Qed.

Section round.
  Context {S : Type} (C : coder_model S) (N : nat).
  Hypothesis HN : (2 <= N)%nat.
  Local Notation top := (top N).
  Local Notation half := (half N).
  Local Notation q := (q1_4 N).

  Lemma encode_all_bits fuel : forall bits s s' out,
    en_follow s = 0%nat -> encode_all C N fuel s bits = Ok (s', out) ->
    en_follow s' = 0%nat /\ Forall bit out.
  Proof.
    induction bits as [|b bits IH]; intros s s' out Hf E.
    - injection E as <- <-. split; [exact Hf|constructor].
    - cbn [encode_all] in E. destruct (encode C N fuel s b) as [[s1 o1]|e] eqn:E1; [|discriminate].
      cbn [bind] in E. destruct (encode_all C N fuel s1 bits) as [[s2 o2]|e] eqn:E2; [|discriminate].
      cbn in E. injection E as <- <-.
      destruct (encode_inv C N _ _ _ _ _ E1) as (m1 & cut1 & _ & _ & Er). rewrite Hf in Er.
      apply (renorm_bits N HN) in Er as [Hf1 Hb1].
      destruct (IH _ _ _ Hf1 E2) as [Hf2 Hb2]. split; [exact Hf2|]. apply Forall_app. auto.
  Qed.

  Lemma decode_all_app fuel : forall xs s ys,
    decode_all C N fuel s (xs ++ ys) =
    do (s', o) <- decode_all C N fuel s xs;
    do (s'', o') <- decode_all C N fuel s' ys;
    Ok (s'', o ++ o').
  Proof.
    induction xs as [|x xs IH]; intros s ys.
    - cbn. destruct (decode_all C N fuel s ys) as [[? ?]|]; reflexivity.
    - cbn [app decode_all]. destruct (decode C N fuel s x) as [[s1 o1]|]; [|reflexivity]. cbn [bind].
      rewrite IH. destruct (decode_all C N fuel s1 xs) as [[s2 o2]|]; [|reflexivity]. cbn [bind].
      destruct (decode_all C N fuel s2 ys) as [[s3 o3]|]; [|reflexivity]. cbn [bind].
      now rewrite app_assoc.
  Qed.

  Lemma win_n_snoc n st p : win_n (Datatypes.S n) st p = 2 * win_n n st p + st (p + n)%nat.
  Proof.
    revert p. induction n as [|n IH]; intros p.
    - cbn. rewrite Nat.add_0_r. lia.
    - change (win_n (Datatypes.S (Datatypes.S n)) st p)
        with (st p * 2 ^ Z.of_nat (Datatypes.S n) + win_n (Datatypes.S n) st (Datatypes.S p)).
      rewrite IH. cbn [win_n]. rewrite Nat2Z.inj_succ, Z.pow_succ_r by lia.
      replace (Datatypes.S p + n)%nat with (p + Datatypes.S n)%nat by lia. lia.
  Qed.

  (** The decoder reads [N] bits before its first symbol. *)
  Lemma start_follow st m fuel0 : forall n i J, (n + i = N)%nat -> (1 <= n)%nat ->
    let d := Dec m 0 (2 ^ Z.of_nat i) (win_n i st 0) in
    ((J < n)%nat -> exists d', decode_all C N (Datatypes.S fuel0) d (map st (seq i J)) = Ok (d', [])) /\
    ((n <= J)%nat -> decode_all C N (Datatypes.S fuel0) d (map st (seq i J)) =
       dec_cont C N (Datatypes.S fuel0) (Datatypes.S fuel0) m 0 top (win N st 0) (map st (seq N (J - n)))).
  Proof.
    pose proof (bounds N HN) as (Hq & Hh & Ht).
    induction n as [|n IH]; intros i J Hi Hn; [lia|]. cbn zeta.
    destruct J as [|J].
    { split; [|lia]. intros _. eexists. reflexivity. }
    cbn [seq map decode_all].
    assert (Ed : decode C N (Datatypes.S fuel0) (Dec m 0 (2 ^ Z.of_nat i) (win_n i st 0)) (st i) =
      do (m', l, h, out) <- decode_loop C N (Datatypes.S fuel0) m 0 (2 ^ Z.of_nat (Datatypes.S i))
        (win_n (Datatypes.S i) st 0);
      Ok (Dec m' l h (win_n (Datatypes.S i) st 0), out)).
    { unfold decode, dec_shift. cbn [de_low de_high de_value de_model]. rewrite !Z.geb_leb.
      destruct (Z.leb_spec half 0); [lia|]. destruct (Z.leb_spec q 0); [lia|]. cbn [andb].
      rewrite !Z.sub_0_r, win_n_snoc, Nat2Z.inj_succ, Z.pow_succ_r by lia.
      cbn [Nat.add]. replace (win_n i st 0 * 2) with (2 * win_n i st 0) by lia.
      replace (2 ^ Z.of_nat i * 2) with (2 * 2 ^ Z.of_nat i) by lia. reflexivity. }
    rewrite Ed. destruct n as [|n].
    - assert (i = N - 1)%nat as -> by lia.
      replace (Datatypes.S (N - 1)) with N by lia.
      split; [lia|]. intros _. cbn [Nat.sub]. rewrite Nat.sub_0_r.
      unfold dec_cont. change (2 ^ Z.of_nat N) with top. change (win_n N st 0) with (win N st 0). clear Ed.
      destruct (decode_loop _ _ _ _ _ _ _) as [[[[? ?] ?] ?]|]; reflexivity.
    - rewrite (loop_apart C N HN).
      + cbn [bind]. destruct (IH (Datatypes.S i) J ltac:(lia) ltac:(lia)) as [IH1 IH2].
        split; intros HJ.
        * destruct IH1 as [d' ->]; [lia|]. exists d'. reflexivity.
        * rewrite IH2 by lia. cbn [Nat.sub].
          destruct (dec_cont _ _ _ _ _ _ _ _ _) as [[? ?]|]; reflexivity.
      + left. unfold AC.half, AC.top.
        replace (Z.of_nat N) with (Z.of_nat (N - 1) + 1) by lia.
        rewrite Z.pow_add_r by lia. change (2 ^ 1) with 2. rewrite Z.div_mul by lia.
        apply Z.pow_le_mono_r; lia.
  Qed.

  Lemma flush_sound fuel : forall rounds s nb acc r,
    flush_loop C N rounds fuel s nb acc = Ok r ->
    exists i s' o, decode_all C N fuel s (repeat 0 i) = Ok (s', o) /\ r = acc ++ o /\
      nb <= Z.of_nat (length r).
  Proof.
    induction rounds as [|rounds IH]; intros s nb acc r E; cbn [flush_loop] in E.
    - destruct (Z.ltb_spec (Z.of_nat (length acc)) nb); [discriminate|]. injection E as <-.
      exists 0%nat, s, []. rewrite app_nil_r. auto.
    - destruct (Z.ltb_spec (Z.of_nat (length acc)) nb).
      + destruct (decode C N fuel s 0) as [[s1 o1]|] eqn:E1; [|discriminate]. cbn [bind] in E.
        destruct (IH _ _ _ _ E) as (i & s' & o & E2 & -> & Hn).
        exists (Datatypes.S i), s', (o1 ++ o). split; [|rewrite app_assoc; auto].
        cbn [repeat decode_all]. rewrite E1. cbn [bind]. rewrite E2. reflexivity.
      + injection E as <-. exists 0%nat, s, []. rewrite app_nil_r. auto.
  Qed.

  Lemma flush_term fuel : forall i rounds s s' o nb acc,
    decode_all C N fuel s (repeat 0 i) = Ok (s', o) ->
    nb <= Z.of_nat (length (acc ++ o)) -> (i <= rounds)%nat ->
    is_ok (flush_loop C N rounds fuel s nb acc).
  Proof.
    induction i as [|i IH]; intros rounds s s' o nb acc E Hn Hr.
    - injection E as <- <-. rewrite app_nil_r in Hn.
      destruct rounds; cbn [flush_loop]; destruct (Z.ltb_spec (Z.of_nat (length acc)) nb); try lia;
        eexists; reflexivity.
    - destruct rounds as [|rounds]; [lia|]. cbn [repeat decode_all] in E.
      cbn [flush_loop]. destruct (Z.ltb_spec (Z.of_nat (length acc)) nb); [|eexists; reflexivity].
      destruct (decode C N fuel s 0) as [[s1 o1]|]; [|discriminate]. cbn [bind] in *.
      destruct (decode_all C N fuel s1 (repeat 0 i)) as [[s2 o2]|] eqn:E2; [|discriminate].
      cbn in E. injection E as <- <-. eapply IH; [exact E2| |lia].
      now rewrite <- app_assoc.
  Qed.

  Section message.
    Variables (fuel : nat) (m : S) (bits : list Z) (s' : @enc S) (out : list Z).
    Hypothesis Hpath : path_ok C N fuel (enc_init N m) bits.
    Hypothesis Henc : encode_all C N fuel (enc_init N m) bits = Ok (s', out).
    Let cbits := out ++ enc_flush N s'.
    Let st (i : nat) := nth i cbits 0.

    Lemma end_follow : en_follow s' = 0%nat.
    Proof. now apply (encode_all_bits fuel bits (enc_init N m) s' out eq_refl Henc). Qed.

    Lemma flush_len : length (enc_flush N s') = 2%nat.
    Proof. unfold enc_flush. rewrite end_follow. destruct (en_low s' <? q); reflexivity. Qed.

    Lemma cbits_bits : all_bits st.
    Proof.
      intros i. subst st cbits. cbn beta.
      destruct (encode_all_bits fuel bits (enc_init N m) s' out eq_refl Henc) as [Hf Hb].
      assert (Hall : Forall bit (out ++ enc_flush N s')).
      { apply Forall_app. split; [exact Hb|]. unfold enc_flush. rewrite Hf.
        destruct (en_low s' <? q); cbn; repeat apply Forall_cons; try apply Forall_nil;
          (now left) || (now right). }
      destruct (nth_in_or_default i (out ++ enc_flush N s') 0) as [Hi|Hi].
      - rewrite Forall_forall in Hall. now apply Hall.
      - left. exact Hi.
    Qed.

    Lemma cbits_at : at_pos st 0 out.
    Proof. intros i Hi. subst st cbits. cbn. now rewrite app_nth1. Qed.

    Lemma cbits_tail : tail_at N st (0 + length out) s'.
    Proof. intros i. subst st cbits. cbn [Nat.add]. now rewrite app_nth2_plus. Qed.

    Lemma cbits_stream i : map st (seq 0 (length cbits + i)) = cbits ++ repeat 0 i.
    Proof.
      subst st. apply nth_ext with (d := 0) (d' := 0).
      - rewrite map_length, seq_length, app_length, repeat_length. reflexivity.
      - intros k Hk. rewrite map_length, seq_length in Hk.
        rewrite (nth_indep _ 0 (nth 0 cbits 0)) by (rewrite map_length, seq_length; lia).
        rewrite (map_nth (fun i => nth i cbits 0)), seq_nth by lia. cbn [Nat.add].
        destruct (Nat.lt_ge_cases k (length cbits)).
        + now rewrite app_nth1.
        + rewrite app_nth2 by lia. rewrite nth_repeat. now apply nth_overflow.
    Qed.

    (** All the decoder returns for the first [J] bits of the code followed by zeros. *)
    Lemma stream_out fuel0 J d o :
      decode_all C N (Datatypes.S fuel0) (dec_init m) (map st (seq 0 J)) = Ok (d, o) ->
      ((J < length out + N)%nat -> prefix o bits) /\ ((length out + N <= J)%nat -> prefix bits o).
    Proof.
      intros E. destruct (start_follow st m fuel0 N 0 J ltac:(lia) ltac:(lia)) as [S1 S2].
      change (Dec m 0 (2 ^ Z.of_nat 0) (win_n 0 st 0)) with (dec_init m) in *.
      destruct (Nat.lt_ge_cases J N) as [HJ|HJ].
      - destruct (S1 HJ) as [d' E']. rewrite E' in E. injection E as _ <-.
        split; [|lia]. intros _. exists bits. reflexivity.
      - rewrite S2 in E by lia.
        destruct (follow C N HN st fuel fuel0 cbits_bits bits (enc_init N m) s' out 0 (Datatypes.S fuel0) (J - N)
          (enc_init_ok N HN m) Hpath Henc cbits_at cbits_tail) as [F1 _].
        cbn [enc_init en_model en_low en_high Nat.add] in F1. destruct (F1 _ _ E). split; intros; auto with arith.
        + apply H. lia.
        + apply H0. lia.
    Qed.

    Lemma stream_ok fuel0 J F :
      is_ok (decode_loop C N F (en_model s') (en_low s') (en_high s') (if en_low s' <? q then q else half)) ->
      (J <= length out + N)%nat -> (length bits + F <= Datatypes.S fuel0)%nat ->
      is_ok (decode_all C N (Datatypes.S fuel0) (dec_init m) (map st (seq 0 J))).
    Proof.
      intros HF HJ' Hf. destruct (start_follow st m fuel0 N 0 J ltac:(lia) ltac:(lia)) as [S1 S2].
      change (Dec m 0 (2 ^ Z.of_nat 0) (win_n 0 st 0)) with (dec_init m) in *.
      destruct (Nat.lt_ge_cases J N) as [HJ|HJ].
      - destruct (S1 HJ) as [d' ->]. eexists. reflexivity.
      - rewrite S2 by lia.
        destruct (follow C N HN st fuel fuel0 cbits_bits bits (enc_init N m) s' out 0 (Datatypes.S fuel0) (J - N)
          (enc_init_ok N HN m) Hpath Henc cbits_at cbits_tail) as [_ F2].
        cbn [enc_init en_model en_low en_high Nat.add] in F2. apply (F2 ltac:(lia) F); [|lia|lia].
        rewrite (flush_value N HN st (length out) s' end_follow); [exact HF|apply cbits_tail].
    Qed.

    Hypothesis HN3 : (3 <= N)%nat.

    (** Whatever the decoder returns is the message. *)
    Lemma decompress_safe rounds fuel' r :
      decompress C N rounds fuel' m cbits (Z.of_nat (length bits)) = Ok r -> r = bits.
    Proof.
      unfold decompress. intros E.
      assert (Hc : cbits = map st (seq 0 (length cbits))).
      { pose proof (cbits_stream 0) as Hc. rewrite Nat.add_0_r, app_nil_r in Hc. auto. }
      assert (Hlen : length cbits = (length out + 2)%nat).
      { subst cbits. rewrite app_length, flush_len. reflexivity. }
      destruct fuel' as [|fuel0].
      { destruct cbits as [|b c]; [cbn in Hlen; lia|]. cbn [decode_all decode] in E.
        unfold decode in E. destruct (dec_shift _ _ _ _ _) as [[? ?] ?]. discriminate. }
      destruct (decode_all C N (Datatypes.S fuel0) (dec_init m) cbits) as [[d o]|] eqn:E1; [|discriminate].
      cbn [bind] in E. pose proof E1 as E1'. rewrite Hc in E1'.
      destruct (stream_out _ _ _ _ E1') as [Hpre _]. specialize (Hpre ltac:(lia)).
      pose proof (prefix_length _ _ Hpre) as Hple.
      unfold dec_flush in E.
      destruct (flush_loop _ _ _ _ _ _ _) as [o2|] eqn:E2; [|discriminate]. cbn [bind] in E.
      injection E as <-.
      destruct (flush_sound _ _ _ _ _ _ E2) as (i & s2 & o3 & E3 & -> & Hn). cbn [app] in *.
      assert (Eall : decode_all C N (Datatypes.S fuel0) (dec_init m) (map st (seq 0 (length cbits + i)))
        = Ok (s2, o ++ o3)).
      { rewrite cbits_stream, decode_all_app, E1. cbn [bind]. rewrite E3. reflexivity. }
      destruct (stream_out _ _ _ _ Eall) as [H1 H2].
      assert (Hb : prefix bits (o ++ o3)).
      { destruct (Nat.lt_ge_cases (length cbits + i) (length out + N)) as [Hi|Hi]; [|auto].
        destruct (H1 Hi) as [t Ht]. exists []. rewrite app_nil_r.
        pose proof (f_equal (@length Z) Ht) as HL. rewrite !app_length in HL.
        destruct t; [now rewrite app_nil_r in Ht|cbn in *; lia]. }
      destruct Hb as [t Ht]. destruct Hpre as [t2 Ht2].
      pose proof (f_equal (@length Z) Ht2) as HL. rewrite app_length in HL. rewrite HL, Ht2.
      rewrite Ht2, <- app_assoc in Ht. apply app_inv_head in Ht. subst o3.
      f_equal. unfold slice_to, slice_start.
      replace (Z.of_nat (length o + length t2) - Z.of_nat (length o)) with (Z.of_nat (length t2)) by lia.
      destruct (Z.ltb_spec (Z.of_nat (length t2)) 0); [lia|].
      rewrite app_length, Z.min_l, Nat2Z.id by lia.
      rewrite firstn_app, firstn_all, Nat.sub_diag. cbn. apply app_nil_r.
    Qed.

    (** It returns if its loop at the end of the message does. *)
    Lemma decompress_term rounds fuel' F :
      is_ok (decode_loop C N F (en_model s') (en_low s') (en_high s') (if en_low s' <? q then q else half)) ->
      (length bits + F <= fuel')%nat -> (N <= rounds)%nat ->
      decompress C N rounds fuel' m cbits (Z.of_nat (length bits)) = Ok bits.
    Proof.
      intros HF Hf Hr.
      destruct fuel' as [|fuel0].
      { destruct F; [destruct HF; discriminate|lia]. }
      enough (Hok : is_ok (decompress C N rounds (Datatypes.S fuel0) m cbits (Z.of_nat (length bits)))).
      { destruct Hok as [r Hok]. rewrite Hok. f_equal. eapply decompress_safe. exact Hok. }
      assert (Hc : cbits = map st (seq 0 (length cbits))).
      { pose proof (cbits_stream 0) as Hc. rewrite Nat.add_0_r, app_nil_r in Hc. auto. }
      assert (Hlen : length cbits = (length out + 2)%nat).
      { subst cbits. rewrite app_length, flush_len. reflexivity. }
      unfold decompress.
      destruct (stream_ok fuel0 (length cbits + (N - 2)) F HF ltac:(lia) Hf) as [[d2 oo] Eall].
      pose proof Eall as Eall'. destruct (stream_out _ _ _ _ Eall') as [_ Hb].
      specialize (Hb ltac:(lia)). apply prefix_length in Hb.
      rewrite cbits_stream, decode_all_app in Eall.
      destruct (decode_all C N (Datatypes.S fuel0) (dec_init m) cbits) as [[d o]|] eqn:E1; [|discriminate].
      cbn [bind] in *.
      destruct (decode_all C N (Datatypes.S fuel0) d (repeat 0 (N - 2))) as [[s2 o2]|] eqn:E2; [|discriminate].
      cbn in Eall. injection Eall as <- <-.
      unfold dec_flush.
      destruct (flush_term (Datatypes.S fuel0) (N - 2) rounds d s2 o2
        (Z.of_nat (length bits) - Z.of_nat (length o)) [] E2) as [r ->]; [|lia|eexists; reflexivity].
      cbn [app]. rewrite app_length in Hb. lia.
    Qed.
  End message.
End round.
