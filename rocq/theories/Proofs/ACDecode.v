(** The decoder follows the encoder: its interval is the encoder's, possibly moved down by
    half, and the symbols it returns are those of the message. *)
From Verif Require Import Model.AC Proofs.PyFacts Proofs.ACFacts.
Open Scope Z_scope.

Section decode.
  Context {S : Type} (C : coder_model S) (N : nat).
  Hypothesis HN : (2 <= N)%nat.
  Local Notation top := (top N).
  Local Notation half := (half N).
  Local Notation q := (q1_4 N).

  (** Encoder and decoder split the interval at the same place for every symbol of [bits]. *)
  Fixpoint path_ok (fuel : nat) (s : enc) (bits : list Z) : Prop :=
    match bits with
    | [] => True
    | b :: bits' =>
        bit b /\
        exists m' cut, cm_enc C (en_model s) b (en_high s - en_low s) = Ok (m', cut) /\
          cm_dec C (en_model s) (en_high s - en_low s) = Ok cut /\
          cm_upd C (en_model s) b = Ok m' /\ 0 <= cut <= en_high s - en_low s /\
          forall s' out, encode C N fuel s b = Ok (s', out) -> path_ok fuel s' bits'
    end.

  (** The rest of a [decode] call in the middle of its loop, and the calls after it. *)
  Definition dec_cont (f fuel : nat) (m : S) (low high value : Z) (xs : list Z) :=
    do (m', l, h, out) <- decode_loop C N f m low high value;
    do (s'', out') <- decode_all C N fuel (Dec m' l h value) xs;
    Ok (s'', out ++ out').

  Definition synced (d : @dec S) (m : S) (low high value : Z) : Prop :=
    de_model d = m /\ exists o, (o = 0 \/ o = half /\ half <= low) /\
      de_low d = low - o /\ de_high d = high - o /\ de_value d = value - o.

  Definition apart (low high : Z) : Prop := high <= half \/ half <= low.

  Lemma loop_apart fuel m low high value : apart low high ->
    decode_loop C N (Datatypes.S fuel) m low high value = Ok (m, low, high, []).
  Proof.
    intros H. cbn [decode_loop].
    destruct (Z.ltb_spec low half), (Z.ltb_spec half high); cbn [andb]; try reflexivity.
    destruct H; lia.
  Qed.

  (** The offset of a synced decoder after reading one more bit. *)
  Lemma shift_synced d m low high value b x :
    synced d m low high value -> 0 <= low < high -> high <= top ->
    (b = 0 /\ high <= half \/ b = 1 /\ half <= low) ->
    exists o, (o = 0 \/ o = half /\ half <= 2 * low - b * top) /\
      dec_shift N (de_low d) (de_high d) (de_value d) x
      = (2 * low - b * top - o, 2 * high - b * top - o, 2 * value - b * top + x - o).
  Proof.
    pose proof (bounds N HN) as (Hq & Hh & Ht).
    intros (_ & o & Ho & -> & -> & ->) Hl Hr Hb. unfold dec_shift.
    rewrite !Z.geb_leb, (dec_q3 N HN).
    destruct Hb as [[-> Hb]|[-> Hb]].
    - destruct Ho as [->|[-> Ho]]; [|lia]. rewrite !Z.sub_0_r.
      destruct (Z.leb_spec half low); [lia|].
      destruct (Z.leb_spec q low); cbn [andb].
      + destruct (Z.leb_spec high (3 * q)); [|lia].
        exists half. split; [right; lia|]. f_equal; [f_equal|]; lia.
      + exists 0. split; [now left|]. f_equal; [f_equal|]; lia.
    - destruct Ho as [->|[-> Ho]].
      + rewrite !Z.sub_0_r. destruct (Z.leb_spec half low); [|lia].
        exists 0. split; [now left|]. f_equal; [f_equal|]; lia.
      + destruct (Z.leb_spec half (low - half)); [lia|].
        destruct (Z.leb_spec q (low - half)); cbn [andb].
        * destruct (Z.leb_spec (high - half) (3 * q)); [|lia].
          exists half. split; [right; lia|]. f_equal; [f_equal|]; lia.
        * exists 0. split; [now left|]. f_equal; [f_equal|]; lia.
  Qed.

  Lemma decode_apart fuel d m low high value b x :
    synced d m low high value -> 0 <= low < high -> high <= top ->
    (b = 0 /\ high <= half \/ b = 1 /\ half <= low) ->
    apart (2 * low - b * top) (2 * high - b * top) ->
    exists d', decode C N (Datatypes.S fuel) d x = Ok (d', []) /\
      synced d' m (2 * low - b * top) (2 * high - b * top) (2 * value - b * top + x).
  Proof.
    intros Hs Hl Hr Hb Ha. pose proof (bounds N HN) as (Hq & Hh & Ht).
    destruct (shift_synced d m low high value b x Hs Hl Hr Hb) as (o & Ho & E).
    unfold decode. rewrite E. rewrite loop_apart.
    - cbn [bind]. eexists. split; [reflexivity|]. destruct Hs as [Hm _].
      split; [exact Hm|]. exists o. cbn. auto.
    - unfold apart in *. destruct Ho as [->|[-> Ho]]; [lia|]. left. lia.
  Qed.

  Lemma decode_straddle fuel d m low high value b x :
    synced d m low high value -> 0 <= low < high -> high <= top ->
    (b = 0 /\ high <= half \/ b = 1 /\ half <= low) ->
    2 * low - b * top < half < 2 * high - b * top ->
    decode C N fuel d x =
    do (m', l, h, out) <- decode_loop C N fuel m (2 * low - b * top) (2 * high - b * top) (2 * value - b * top + x);
    Ok (Dec m' l h (2 * value - b * top + x), out).
  Proof.
    intros Hs Hl Hr Hb Ha.
    destruct (shift_synced d m low high value b x Hs Hl Hr Hb) as (o & Ho & E).
    unfold decode. rewrite E. destruct Hs as [-> _].
    destruct Ho as [->|[-> Ho]]; [|lia]. rewrite !Z.sub_0_r. reflexivity.
  Qed.

  Lemma renorm_follow st fuel0 : all_bits st -> forall fuel low high l h f out p d m j,
    renorm N fuel low high 0 = Ok (l, h, f, out) -> at_pos st p out ->
    l <= win N st (p + length out) < h ->
    0 <= low -> high <= top -> apart low high -> synced d m low high (win N st p) ->
    ((j < length out)%nat ->
       exists d', decode_all C N (Datatypes.S fuel0) d (map st (seq (p + N) j)) = Ok (d', [])) /\
    ((length out <= j)%nat ->
       decode_all C N (Datatypes.S fuel0) d (map st (seq (p + N) j)) =
       dec_cont (Datatypes.S fuel0) (Datatypes.S fuel0) m l h (win N st (p + length out))
         (map st (seq (p + length out + N) (j - length out)))).
  Proof.
    intros Hst. pose proof (bounds N HN) as (Hq & Hh & Ht).
    induction fuel as [|fuel IH]; intros low high l h f out p d m j E Ha Hv Hl Hr Hap Hsy; [discriminate|].
    pose proof (renorm_value N HN st _ Hst _ _ _ _ _ _ p E Ha Hv) as Hv0.
    rewrite (renorm_step N HN) in E.
    assert (Hstep : forall b o1, (b = 0 /\ high <= half \/ b = 1 /\ half <= low) ->
      renorm N fuel (2 * low - b * top) (2 * high - b * top) 0 = Ok (l, h, f, o1) -> out = b :: o1 ->
    ((j < length out)%nat ->
       exists d', decode_all C N (Datatypes.S fuel0) d (map st (seq (p + N) j)) = Ok (d', [])) /\
    ((length out <= j)%nat ->
       decode_all C N (Datatypes.S fuel0) d (map st (seq (p + N) j)) =
       dec_cont (Datatypes.S fuel0) (Datatypes.S fuel0) m l h (win N st (p + length out))
         (map st (seq (p + length out + N) (j - length out))))).
    { clear E. intros b o1 Hb E1 ->. apply (at_pos_cons N HN) in Ha as [Hb' Ha]. cbn [length] in *.
      rewrite <- Nat.add_succ_comm in *.
      assert (Hw : win N st (Datatypes.S p) = 2 * win N st p - b * top + st (p + N)%nat).
      { rewrite (win_shift N HN), Hb'. reflexivity. }
      destruct j as [|j].
      { split; [|lia]. intros _. exists d. reflexivity. }
      cbn [seq map decode_all].
      replace (Datatypes.S (p + N)) with (Datatypes.S p + N)%nat by lia.
      pose proof E1 as E1'.
      destruct fuel as [|fuel]; [discriminate|]. rewrite (renorm_step N HN) in E1'.
      destruct (Z.leb_spec (2 * high - b * top) half) as [Hc|Hc];
        [|rewrite Z.geb_leb in E1'; destruct (Z.leb_spec half (2 * low - b * top)) as [Hc'|Hc']].
      - destruct (decode_apart fuel0 d m low high (win N st p) b (st (p + N)%nat)) as (d' & Ed & Hs');
          try assumption; try lia; [left; assumption|].
        rewrite Ed. cbn [bind]. rewrite <- Hw in Hs'.
        destruct (IH _ _ _ _ _ _ (Datatypes.S p) d' m j E1 Ha Hv) as [IH1 IH2]; try lia; try easy.
        { left; assumption. }
        split.
        + intros Hj. destruct IH1 as [d'' ->]; [lia|]. exists d''. reflexivity.
        + intros Hj. rewrite IH2 by lia. cbn [Nat.sub].
          destruct (dec_cont _ _ _ _ _ _ _) as [[s'' o'']|]; reflexivity.
      - destruct (decode_apart fuel0 d m low high (win N st p) b (st (p + N)%nat)) as (d' & Ed & Hs');
          try assumption; try lia; [right; assumption|].
        rewrite Ed. cbn [bind]. rewrite <- Hw in Hs'.
        destruct (IH _ _ _ _ _ _ (Datatypes.S p) d' m j E1 Ha Hv) as [IH1 IH2]; try lia; try easy.
        { right; assumption. }
        split.
        + intros Hj. destruct IH1 as [d'' ->]; [lia|]. exists d''. reflexivity.
        + intros Hj. rewrite IH2 by lia. cbn [Nat.sub].
          destruct (dec_cont _ _ _ _ _ _ _) as [[s'' o'']|]; reflexivity.
      - injection E1' as <- <- <- <-. cbn [length] in *.
        split; [lia|]. intros _. rewrite Nat.add_0_r in *. cbn [Nat.sub]. rewrite Nat.sub_0_r.
        rewrite (decode_straddle _ d m low high (win N st p) b) by (try assumption; lia).
        unfold dec_cont. rewrite <- Hw.
        destruct (decode_loop _ _ _ _ _ _ _) as [[[[m1 l1] h1] o1]|]; reflexivity. }
    destruct (Z.leb_spec high half) as [Hc|Hc].
    - destruct (renorm N fuel (2 * low) (2 * high) 0) as [[[[l1 h1] f1] o1]|e] eqn:E1; [|discriminate].
      cbn in E. injection E as -> -> -> <-. apply (Hstep 0 o1); [left; lia| |reflexivity].
      rewrite <- E1. f_equal; lia.
    - rewrite Z.geb_leb in E. destruct (Z.leb_spec half low) as [Hc'|Hc'].
      + destruct (renorm N fuel (2 * low - top) (2 * high - top) 0) as [[[[l1 h1] f1] o1]|e] eqn:E1; [|discriminate].
        cbn in E. injection E as -> -> -> <-. apply (Hstep 1 o1); [right; lia| |reflexivity].
        rewrite <- E1. f_equal; lia.
      + destruct Hap; lia.
  Qed.

  (** From a straddling interval, the encoder's value of the stream. *)
  Lemma encode_all_value st fuel : all_bits st -> forall bits s s' out p,
    enc_ok N s -> path_ok fuel s bits ->
    encode_all C N fuel s bits = Ok (s', out) -> at_pos st p out -> tail_at N st (p + length out) s' ->
    enc_ok N s' /\ en_low s <= win N st p < en_high s.
  Proof.
    intros Hst. induction bits as [|b bits IH]; intros s s' out p Hs Hp E Ha Ht.
    - injection E as <- <-. cbn in Ht. rewrite Nat.add_0_r in Ht.
      split; [exact Hs|]. apply (flush_in N HN); assumption.
    - cbn [encode_all] in E. destruct (encode C N fuel s b) as [[s1 o1]|e] eqn:E1; [|discriminate].
      cbn [bind] in E. destruct (encode_all C N fuel s1 bits) as [[s2 o2]|e] eqn:E2; [|discriminate].
      cbn in E. injection E as <- <-.
      destruct Hp as (Hb & m' & cut & Ec & _ & _ & Hc & Hp). specialize (Hp _ _ E1).
      destruct (encode_inv C N _ _ _ _ _ E1) as (m1 & cut1 & Ec1 & Hm & Er).
      rewrite Ec in Ec1. injection Ec1 as <- <-.
      destruct Hs as [[Hl Hh] Hf]. rewrite Hf in Er.
      apply (at_pos_app N HN) in Ha as [Ha1 Ha2]. rewrite app_length, Nat.add_assoc in Ht.
      assert (Hlow : 0 <= (if b =? 0 then en_low s else en_low s + cut)) by (destruct (b =? 0); lia).
      assert (Hhigh : (if b =? 0 then en_low s + cut else en_high s) <= top) by (destruct (b =? 0); lia).
      assert (Hs1 : enc_ok N s1).
      { split; [eapply (renorm_straddles N HN); eassumption|].
        apply (renorm_bits N HN) in Er. apply Er. }
      destruct (IH s1 s2 o2 (p + length o1)%nat Hs1 Hp E2 Ha2 Ht) as [Hs2 Hv].
      split; [exact Hs2|].
      pose proof (renorm_value N HN st _ Hst _ _ _ _ _ _ _ Er Ha1 Hv) as Hv0.
      destruct (b =? 0); lia.
  Qed.

  Definition prefix (l l' : list Z) : Prop := exists t, l' = l ++ t.

  Lemma decode_loop_straddle f m low high value cut m' b :
    low < half < high -> cm_dec C m (high - low) = Ok cut -> cm_upd C m b = Ok m' ->
    (b = 0 /\ value < low + cut \/ b = 1 /\ low + cut <= value) ->
    decode_loop C N (Datatypes.S f) m low high value =
    do (m'', l, h, out) <- decode_loop C N f m' (if b =? 0 then low else low + cut)
      (if b =? 0 then low + cut else high) value;
    Ok (m'', l, h, b :: out).
  Proof.
    intros Hlh Ed Eu Hb. cbn [decode_loop].
    destruct (Z.ltb_spec low half); [|lia]. destruct (Z.ltb_spec half high); [|lia]. cbn [andb].
    rewrite Ed. cbn [bind].
    replace (if value <? low + cut then 0 else 1) with b.
    2: destruct (Z.ltb_spec value (low + cut)); lia.
    rewrite Eu. cbn [bind]. destruct (b =? 0); reflexivity.
  Qed.

  (** What the decoder returns after reading [j] bits beyond its window. *)
  Lemma follow st fuel fuel0 : all_bits st -> forall bits s s' out p f j,
    enc_ok N s -> path_ok fuel s bits ->
    encode_all C N fuel s bits = Ok (s', out) -> at_pos st p out -> tail_at N st (p + length out) s' ->
    (forall d o,
      dec_cont f (Datatypes.S fuel0) (en_model s) (en_low s) (en_high s) (win N st p)
        (map st (seq (p + N) j)) = Ok (d, o) ->
      ((j < length out)%nat -> prefix o bits) /\ ((length out <= j)%nat -> prefix bits o)) /\
    ((j <= length out)%nat -> forall F,
      is_ok (decode_loop C N F (en_model s') (en_low s') (en_high s') (win N st (p + length out))) ->
      (length bits + F <= f)%nat -> (length bits + F <= Datatypes.S fuel0)%nat ->
      is_ok (dec_cont f (Datatypes.S fuel0) (en_model s) (en_low s) (en_high s) (win N st p)
        (map st (seq (p + N) j)))).
  Proof.
    intros Hst. induction bits as [|b bits IH]; intros s s' out p f j Hs Hp E Ha Ht.
    - injection E as <- <-. cbn [length] in *. split.
      + intros d o _. split; [lia|]. intros _. exists o. reflexivity.
      + intros Hj F [[[[m1 l1] h1] o1] HF] Hf _. assert (j = 0)%nat as -> by lia. cbn [Nat.add] in Hf.
        cbn [seq map]. unfold dec_cont. rewrite Nat.add_0_r in HF.
        assert (Hmono : forall F m low high v r, decode_loop C N F m low high v = Ok r ->
          forall f, (F <= f)%nat -> decode_loop C N f m low high v = Ok r).
        { clear. induction F as [|F IHF]; intros m low high v r H f Hf; [discriminate|].
          destruct f as [|f]; [lia|]. cbn [decode_loop] in *.
          destruct ((low <? half) && (half <? high)); [|exact H].
          destruct (cm_dec C m (high - low)) as [cut|]; [|discriminate]. cbn [bind] in *.
          destruct (cm_upd C m _) as [m'|]; [|discriminate]. cbn [bind] in *.
          destruct (_ =? 0);
          match goal with H : bind (decode_loop C N F ?a ?b ?c ?d) _ = _ |- _ =>
            destruct (decode_loop C N F a b c d) as [[[[m1 l1] h1] o1]|] eqn:E1; [|discriminate];
            rewrite (IHF _ _ _ _ _ E1 f) by lia; exact H end. }
        rewrite (Hmono _ _ _ _ _ _ HF) by lia. cbn. eexists. reflexivity.
    - pose proof (encode_all_value st fuel Hst (b :: bits) s s' out p Hs Hp E Ha Ht) as [_ Hv].
      cbn [encode_all] in E. destruct (encode C N fuel s b) as [[s1 o1]|e] eqn:E1; [|discriminate].
      cbn [bind] in E. destruct (encode_all C N fuel s1 bits) as [[s2 o2]|e] eqn:E2; [|discriminate].
      cbn in E. injection E as <- <-.
      destruct Hp as (Hb & m' & cut & Ec & Ed & Eu & Hc & Hp). specialize (Hp _ _ E1).
      destruct (encode_inv C N _ _ _ _ _ E1) as (m1 & cut1 & Ec1 & Hm & Er).
      rewrite Ec in Ec1. injection Ec1 as <- <-.
      pose proof Hs as [[Hl Hh] Hf]. rewrite Hf in Er.
      apply (at_pos_app N HN) in Ha as [Ha1 Ha2]. rewrite app_length, Nat.add_assoc in Ht.
      assert (Hlow : 0 <= (if b =? 0 then en_low s else en_low s + cut)) by (destruct (b =? 0); lia).
      assert (Hhigh : (if b =? 0 then en_low s + cut else en_high s) <= top) by (destruct (b =? 0); lia).
      assert (Hs1 : enc_ok N s1).
      { split; [eapply (renorm_straddles N HN); eassumption|].
        apply (renorm_bits N HN) in Er. apply Er. }
      pose proof (encode_all_value st fuel Hst bits s1 s2 o2 _ Hs1 Hp E2 Ha2 Ht) as [_ Hv1].
      pose proof (renorm_value N HN st _ Hst _ _ _ _ _ _ _ Er Ha1 Hv1) as Hv0.
      assert (Hsym : b = 0 /\ win N st p < en_low s + cut \/ b = 1 /\ en_low s + cut <= win N st p).
      { destruct Hb as [-> | ->]; cbn in Hv0; lia. }
      (* what follows the decoded symbol *)
      assert (Hrest : forall f,
        dec_cont (Datatypes.S f) (Datatypes.S fuel0) (en_model s) (en_low s) (en_high s) (win N st p)
          (map st (seq (p + N) j)) =
        do (d, o) <- dec_cont f (Datatypes.S fuel0) m' (if b =? 0 then en_low s else en_low s + cut)
          (if b =? 0 then en_low s + cut else en_high s) (win N st p) (map st (seq (p + N) j));
        Ok (d, b :: o)).
      { intros f'. unfold dec_cont at 1.
        rewrite (decode_loop_straddle f' _ _ _ _ cut m' b) by (assumption || lia).
        unfold dec_cont.
        destruct (decode_loop C N f' m' _ _ _) as [[[[m2 l2] h2] o2']|]; [|reflexivity]. cbn [bind].
        destruct (decode_all _ _ _ _ _) as [[d3 o3]|]; reflexivity. }
      (* either the next interval straddles again, or bits are read first *)
      assert (Hcases : o1 = [] /\ en_low s1 = (if b =? 0 then en_low s else en_low s + cut) /\
                en_high s1 = (if b =? 0 then en_low s + cut else en_high s) \/
              o1 <> [] /\ apart (if b =? 0 then en_low s else en_low s + cut)
                (if b =? 0 then en_low s + cut else en_high s)).
      { clear - Er HN. destruct fuel as [|fuel]; [discriminate|]. rewrite (renorm_step N HN) in Er.
        match type of Er with (if ?h <=? _ then _ else _) = _ => destruct (Z.leb_spec h half) as [Hc|Hc] end.
        - right. split; [|left; exact Hc]. destruct (renorm N fuel _ _ 0) as [[[[? ?] ?] ?]|]; [|discriminate].
          cbn in Er. injection Er as _ _ _ <-. discriminate.
        - rewrite Z.geb_leb in Er.
          match type of Er with (if half <=? ?l then _ else _) = _ => destruct (Z.leb_spec half l) as [Hc'|Hc'] end.
          + right. split; [|right; exact Hc']. destruct (renorm N fuel _ _ 0) as [[[[? ?] ?] ?]|]; [|discriminate].
            cbn in Er. injection Er as _ _ _ <-. discriminate.
          + injection Er as <- <- _ <-. left. auto. }
      subst m'. destruct Hcases as [(-> & El & Eh)|(Hne & Hap)].
      + cbn [length app] in *. rewrite Nat.add_0_r in *. rewrite <- El, <- Eh in Hrest.
        split.
        * intros d o Hd. destruct f as [|f]; [discriminate|]. rewrite Hrest in Hd.
          match type of Hd with bind ?x _ = _ => destruct x as [[d1 o1']|] eqn:Ed1; [|discriminate] end.
          cbn in Hd. injection Hd as <- <-.
          destruct (IH s1 s2 o2 p f j Hs1 Hp E2 Ha2 Ht) as [IH1 _].
          destruct (IH1 _ _ Ed1) as [H1 H2]. split; intros Hj.
          -- destruct (H1 Hj) as [t ->]. exists t. reflexivity.
          -- destruct (H2 Hj) as [t ->]. exists t. reflexivity.
        * intros Hj F HF Hf1 Hf2. destruct f as [|f]; [lia|]. rewrite Hrest.
          destruct (IH s1 s2 o2 p f j Hs1 Hp E2 Ha2 Ht) as [_ IH2].
          destruct (IH2 Hj F HF ltac:(lia) ltac:(lia)) as [[d1 o1'] ->]. eexists. reflexivity.
      + assert (Hlen1 : (1 <= length o1)%nat) by (destruct o1; [easy|cbn; lia]).
        pose (low1 := if b =? 0 then en_low s else en_low s + cut); fold low1 in Er, Hlow, Hap, Hrest, Hv0.
        pose (high1 := if b =? 0 then en_low s + cut else en_high s); fold high1 in Er, Hhigh, Hap, Hrest, Hv0.
        destruct (renorm_follow st fuel0 Hst fuel low1 high1 _ _ _ o1 p
          (Dec (en_model s1) low1 high1 (win N st p)) (en_model s1) j Er Ha1 Hv1 Hlow Hhigh Hap) as [R1 R2].
        { split; [reflexivity|]. exists 0. cbn. split; [now left|]. lia. }
        assert (Hrest' : forall f,
          dec_cont (Datatypes.S f) (Datatypes.S fuel0) (en_model s1) low1 high1 (win N st p)
            (map st (seq (p + N) j)) =
          decode_all C N (Datatypes.S fuel0) (Dec (en_model s1) low1 high1 (win N st p)) (map st (seq (p + N) j))).
        { intros f'. unfold dec_cont. rewrite loop_apart by exact Hap. cbn [bind].
          destruct (decode_all _ _ _ _ _) as [[? ?]|]; reflexivity. }
        rewrite app_length.
        destruct f as [|[|f]].
        { split; [discriminate|]. cbn [length]. lia. }
        { split; [intros d o Hd; rewrite Hrest in Hd; discriminate|].
          intros _ F [? HF] Hf1 _. destruct F; [discriminate|]. cbn [length] in Hf1. lia. }
        rewrite Hrest, Hrest'.
        destruct (Nat.lt_ge_cases j (length o1)) as [Hj|Hj].
        * destruct (R1 Hj) as [d' ->]. cbn [bind]. split; [|intros; eexists; reflexivity].
          intros d o Hd. injection Hd as _ <-. split; [|lia]. intros _. exists bits. reflexivity.
        * rewrite (R2 Hj).
          destruct (IH s1 s2 o2 (p + length o1)%nat (Datatypes.S fuel0) (j - length o1)%nat Hs1 Hp E2 Ha2 Ht)
            as [IH1 IH2].
          split.
          -- intros d o Hd.
             match type of Hd with bind ?x _ = _ => destruct x as [[d1 o1']|] eqn:Ed1; [|discriminate] end.
             cbn in Hd. injection Hd as <- <-. destruct (IH1 _ _ eq_refl) as [H1 H2]. split; intros Hj'.
             ++ destruct H1 as [t ->]; [lia|]. exists t. reflexivity.
             ++ destruct H2 as [t ->]; [lia|]. exists t. reflexivity.
          -- intros Hj' F HF Hf1 Hf2. cbn [length] in *. rewrite Nat.add_assoc in HF.
             destruct (IH2 ltac:(lia) F HF ltac:(lia) ltac:(lia)) as [[d1 o1'] ->]. eexists. reflexivity.
  Qed.
End decode.
