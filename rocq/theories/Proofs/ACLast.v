(** When decompression ends: either the last symbol put out a bit, or the decoder's loop at the
    end of the message ends by itself. *)
From Verif Require Import Spec.ACSpec Proofs.PyFacts Proofs.ACFacts Proofs.ACDecode Proofs.ACRound.
Open Scope Z_scope.

Section last.
  Context {S : Type} (C : coder_model S) (N : nat).
  Hypothesis HN : (2 <= N)%nat.
  Local Notation top := (top N).
  Local Notation half := (half N).
  Local Notation q := (q1_4 N).

  (** The decoder at a straddling interval of the encoder, [j] bits still to be read. *)
  Local Notation at_state st fuel0 f s p j :=
    (dec_cont C N f (Datatypes.S fuel0) (en_model s) (en_low s) (en_high s) (win N st p)
       (map st (seq (p + N) j))).

  (** One symbol of the message, as the decoder sees it. *)
  Lemma follow_step st fuel fuel0 b bits s s1 s2 o1 o2 p j : all_bits st ->
    enc_ok N s -> path_ok C N fuel s (b :: bits) ->
    encode C N fuel s b = Ok (s1, o1) -> encode_all C N fuel s1 bits = Ok (s2, o2) ->
    at_pos st p (o1 ++ o2) -> tail_at N st (p + length (o1 ++ o2)) s2 ->
    (enc_ok N s1 /\ path_ok C N fuel s1 bits /\
     at_pos st (p + length o1) o2 /\ tail_at N st (p + length o1 + length o2) s2) /\
    ((o1 = [] /\ forall f, at_state st fuel0 (Datatypes.S f) s p j =
        do (d, o) <- at_state st fuel0 f s1 p j; Ok (d, b :: o)) \/
     (o1 <> [] /\
      at_state st fuel0 1%nat s p j = Err OutOfFuel /\
      ((j < length o1)%nat -> forall f, exists d, at_state st fuel0 (2 + f)%nat s p j = Ok (d, [b])) /\
      ((length o1 <= j)%nat -> forall f, at_state st fuel0 (2 + f)%nat s p j =
         do (d, o) <- at_state st fuel0 (Datatypes.S fuel0) s1 (p + length o1)%nat (j - length o1)%nat;
         Ok (d, b :: o)))).
  Proof.
    intros Hst Hs Hp E1 E2 Ha Ht.
    destruct Hp as (Hb & m' & cut & Ec & Ed & Eu & Hc & Hp). specialize (Hp _ _ E1).
    destruct (encode_inv C N _ _ _ _ _ E1) as (m1 & cut1 & Ec1 & Hm & Er).
    rewrite Ec in Ec1. injection Ec1 as <- <-.
    pose proof Hs as [[Hl Hh] Hf]. rewrite Hf in Er.
    apply (at_pos_app N HN) in Ha as [Ha1 Ha2]. rewrite app_length, Nat.add_assoc in Ht.
    assert (Hlow : 0 <= (if b =? 0 then en_low s else en_low s + cut)) by (destruct (b =? 0); lia).
    assert (Hhigh : (if b =? 0 then en_low s + cut else en_high s) <= top) by (destruct (b =? 0); lia).
    assert (Hs1 : enc_ok N s1).
    { split; [eapply (renorm_straddles N HN); eassumption|].
      apply (renorm_bits N HN) in Er. apply Er. }
    split; [auto|].
    pose proof (encode_all_value C N HN st fuel Hst bits s1 s2 o2 _ Hs1 Hp E2 Ha2 Ht) as [_ Hv1].
    pose proof (renorm_value N HN st _ Hst _ _ _ _ _ _ _ Er Ha1 Hv1) as Hv0.
    assert (Hsym : b = 0 /\ win N st p < en_low s + cut \/ b = 1 /\ en_low s + cut <= win N st p).
    { destruct Hb as [-> | ->]; cbn in Hv0; lia. }
    assert (Hrest : forall f, at_state st fuel0 (Datatypes.S f) s p j =
      do (d, o) <- dec_cont C N f (Datatypes.S fuel0) m' (if b =? 0 then en_low s else en_low s + cut)
        (if b =? 0 then en_low s + cut else en_high s) (win N st p) (map st (seq (p + N) j));
      Ok (d, b :: o)).
    { intros f'. unfold dec_cont at 1.
      rewrite (decode_loop_straddle C N HN f' _ _ _ _ cut m' b) by (assumption || lia).
      unfold dec_cont.
      destruct (decode_loop C N f' m' _ _ _) as [[[[m2 l2] h2] o2']|]; [|reflexivity]. cbn [bind].
      destruct (decode_all _ _ _ _ _) as [[d3 o3]|]; reflexivity. }
    assert (Hcases : o1 = [] /\ en_low s1 = (if b =? 0 then en_low s else en_low s + cut) /\
              en_high s1 = (if b =? 0 then en_low s + cut else en_high s) \/
            o1 <> [] /\ apart N (if b =? 0 then en_low s else en_low s + cut)
              (if b =? 0 then en_low s + cut else en_high s)).
    { clear - Er HN. destruct fuel as [|fuel]; [discriminate|]. rewrite (renorm_step N HN) in Er.
      match type of Er with (if ?h <=? _ then _ else _) = _ => destruct (Z.leb_spec h half) as [Hc|Hc] end.
      - right. split; [|left; exact Hc]. destruct (renorm N fuel _ _ 0) as [[[[? ?] ?] ?]|]; [|discriminate].
        cbn in Er. injection Er as _ _ _ <-. discriminate.
      - rewrite Z.geb_leb in Er.
        match type of Er with (if half <=? ?l then _ else _) = _ => destruct (Z.leb_spec half l) as [Hc'|Hc'] end.
        + right. split; [|right; exact Hc']. destruct (renorm N fuel _ _ 0) as [[[[? ?] ?] ?]|]; [|discriminate].
          cbn in Er. injection Er as _ _ _ <-. discriminate.
        + injection Er as <- <- _ <-. left. auto. }
    subst m'. destruct Hcases as [(-> & El & Eh)|(Hne & Hap)].
    - left. split; [reflexivity|]. rewrite <- El, <- Eh in Hrest. exact Hrest.
    - right. split; [exact Hne|].
      pose (low1 := if b =? 0 then en_low s else en_low s + cut); fold low1 in Er, Hlow, Hap, Hrest, Hv0.
      pose (high1 := if b =? 0 then en_low s + cut else en_high s); fold high1 in Er, Hhigh, Hap, Hrest, Hv0.
      destruct (renorm_follow C N HN st fuel0 Hst fuel low1 high1 _ _ _ o1 p
        (Dec (en_model s1) low1 high1 (win N st p)) (en_model s1) j Er Ha1 Hv1 Hlow Hhigh Hap) as [R1 R2].
      { split; [reflexivity|]. exists 0. cbn. split; [now left|]. lia. }
      assert (Hrest' : forall f,
        dec_cont C N (Datatypes.S f) (Datatypes.S fuel0) (en_model s1) low1 high1 (win N st p)
          (map st (seq (p + N) j)) =
        decode_all C N (Datatypes.S fuel0) (Dec (en_model s1) low1 high1 (win N st p)) (map st (seq (p + N) j))).
      { intros f'. unfold dec_cont. rewrite (loop_apart C N HN) by exact Hap. cbn [bind].
        destruct (decode_all _ _ _ _ _) as [[? ?]|]; reflexivity. }
      split; [rewrite Hrest; reflexivity|].
      split; intros Hj f; cbn [Nat.add]; rewrite Hrest, Hrest'.
      + destruct (R1 Hj) as [d' ->]. exists d'. reflexivity.
      + rewrite (R2 Hj). reflexivity.
  Qed.

  Lemma follow_last st fuel fuel0 : all_bits st -> forall bits s s' out p f j,
    bits <> [] -> enc_ok N s -> path_ok C N fuel s bits ->
    encode_all C N fuel s bits = Ok (s', out) -> at_pos st p out -> tail_at N st (p + length out) s' ->
    (forall d o, at_state st fuel0 f s p j = Ok (d, o) ->
      ((j < before_last C N fuel s bits)%nat -> (length o < length bits)%nat) /\
      ((before_last C N fuel s bits <= j)%nat -> prefix bits o)) /\
    ((j < length out)%nat -> (length bits < f)%nat -> (length bits <= fuel0)%nat ->
      is_ok (at_state st fuel0 f s p j)).
  Proof.
    intros Hst. induction bits as [|b bits IH]; intros s s' out p f j Hne Hs Hp E Ha Ht; [easy|]. clear Hne.
    cbn [encode_all] in E. destruct (encode C N fuel s b) as [[s1 o1]|e] eqn:E1; [|discriminate].
    cbn [bind] in E. destruct (encode_all C N fuel s1 bits) as [[s2 o2]|e] eqn:E2; [|discriminate].
    cbn in E. injection E as <- <-.
    destruct (follow_step st fuel fuel0 b bits s s1 s2 o1 o2 p j Hst Hs Hp E1 E2 Ha Ht)
      as [(Hs1 & Hp1 & Ha1 & Ht1) Hcase].
    assert (Hbl : before_last C N fuel s (b :: bits) =
      match bits with [] => 0%nat | _ => (length o1 + before_last C N fuel s1 bits)%nat end).
    { cbn [before_last]. rewrite E1. destruct bits; reflexivity. }
    rewrite Hbl. clear Hbl.
    destruct bits as [|b2 bits].
    { (* the last symbol *)
      injection E2 as <- <-. rewrite app_nil_r in *. clear IH.
      destruct Hcase as [[-> Hc]|(Hne & H1 & H2 & H3)].
      - split; [|cbn; lia]. intros d o Hd. split; [lia|]. intros _.
        destruct f as [|f]; [discriminate|]. rewrite Hc in Hd.
        match type of Hd with bind ?x _ = _ => destruct x as [[d1 o1']|]; [|discriminate] end.
        injection Hd as <- <-. exists o1'. reflexivity.
      - split.
        + intros d o Hd. split; [lia|]. intros _.
          destruct f as [|[|f]]; [discriminate|rewrite H1 in Hd; discriminate|].
          destruct (Nat.lt_ge_cases j (length o1)) as [Hj|Hj].
          * destruct (H2 Hj f) as [d' E']. cbn [Nat.add] in E'. rewrite E' in Hd. injection Hd as _ <-.
            exists []. reflexivity.
          * specialize (H3 Hj f). cbn [Nat.add] in H3. rewrite H3 in Hd.
            match type of Hd with bind ?x _ = _ => destruct x as [[d1 o1']|]; [|discriminate] end.
            injection Hd as <- <-. exists o1'. reflexivity.
        + intros Hj Hf _. cbn [length] in *. destruct f as [|[|f]]; [lia|lia|].
          destruct (H2 ltac:(lia) f) as [d' E']. cbn [Nat.add] in E'. rewrite E'. eexists. reflexivity. }
    specialize (IH s1 s2 o2).
    destruct Hcase as [[-> Hc]|(Hne & H1 & H2 & H3)].
    - cbn [length app Nat.add] in *. rewrite Nat.add_0_r in *.
      split.
      + intros d o Hd. destruct f as [|f]; [discriminate|]. rewrite Hc in Hd.
        match type of Hd with bind ?x _ = _ => destruct x as [[d1 o1']|] eqn:Ed1; [|discriminate] end.
        injection Hd as <- <-. destruct (IH p f j) as [IH1 _]; try assumption; [discriminate|].
        destruct (IH1 _ _ Ed1) as [A1 A2]. split; intros Hj.
        * specialize (A1 Hj). cbn [length] in *. lia.
        * destruct (A2 Hj) as [t ->]. exists t. reflexivity.
      + intros Hj Hf Hf0. destruct f as [|f]; [lia|]. rewrite Hc.
        destruct (IH p f j) as [_ IH2]; try assumption; [discriminate|].
        destruct (IH2 Hj ltac:(lia) ltac:(lia)) as [[d1 o1'] ->]. eexists. reflexivity.
    - rewrite app_length in *. split.
      + intros d o Hd. destruct f as [|[|f]]; [discriminate|rewrite H1 in Hd; discriminate|].
        destruct (Nat.lt_ge_cases j (length o1)) as [Hj|Hj].
        * destruct (H2 Hj f) as [d' E']. cbn [Nat.add] in E'. rewrite E' in Hd. injection Hd as _ <-.
          split; [cbn; lia|lia].
        * specialize (H3 Hj f). cbn [Nat.add] in H3. rewrite H3 in Hd.
          match type of Hd with bind ?x _ = _ => destruct x as [[d1 o1']|] eqn:Ed1; [|discriminate] end.
          injection Hd as <- <-.
          destruct (IH (p + length o1)%nat (Datatypes.S fuel0) (j - length o1)%nat) as [IH1 _];
            try assumption; [discriminate|].
          destruct (IH1 _ _ Ed1) as [A1 A2]. split; intros Hj'.
          -- specialize (A1 ltac:(lia)). cbn [length] in *. lia.
          -- destruct (A2 ltac:(lia)) as [t ->]. exists t. reflexivity.
      + intros Hj Hf Hf0. cbn [length] in *. destruct f as [|[|f]]; [lia|lia|].
        destruct (Nat.lt_ge_cases j (length o1)) as [Hj'|Hj'].
        * destruct (H2 Hj' f) as [d' E']. cbn [Nat.add] in E'. rewrite E'. eexists. reflexivity.
        * specialize (H3 Hj' f). cbn [Nat.add] in H3. rewrite H3.
          destruct (IH (p + length o1)%nat (Datatypes.S fuel0) (j - length o1)%nat) as [_ IH2];
            try assumption; [discriminate|].
          destruct (IH2 ltac:(lia) ltac:(lia) ltac:(lia)) as [[d1 o1'] ->]. eexists. reflexivity.
  Qed.

  (** If the loop at the end of the message never ends, reading that far never ends. *)
  Lemma follow_hang st fuel fuel0 : all_bits st -> forall bits s s' out p f j,
    enc_ok N s -> path_ok C N fuel s bits ->
    encode_all C N fuel s bits = Ok (s', out) -> at_pos st p out -> tail_at N st (p + length out) s' ->
    (forall F r, decode_loop C N F (en_model s') (en_low s') (en_high s') (win N st (p + length out)) <> Ok r) ->
    (length out <= j)%nat -> forall r, at_state st fuel0 f s p j <> Ok r.
  Proof.
    intros Hst. induction bits as [|b bits IH]; intros s s' out p f j Hs Hp E Ha Ht Hno Hj r.
    - injection E as <- <-. cbn [length] in Hno. rewrite Nat.add_0_r in Hno. unfold dec_cont.
      destruct (decode_loop _ _ _ _ _ _ _) as [x|] eqn:Ex; [|discriminate]. now apply Hno in Ex.
    - cbn [encode_all] in E. destruct (encode C N fuel s b) as [[s1 o1]|e] eqn:E1; [|discriminate].
      cbn [bind] in E. destruct (encode_all C N fuel s1 bits) as [[s2 o2]|e] eqn:E2; [|discriminate].
      cbn in E. injection E as <- <-.
      destruct (follow_step st fuel fuel0 b bits s s1 s2 o1 o2 p j Hst Hs Hp E1 E2 Ha Ht)
        as [(Hs1 & Hp1 & Ha1 & Ht1) Hcase].
      rewrite app_length in *. rewrite Nat.add_assoc in Hno.
      assert (Hno' : forall x, bind (B := @dec S * list Z) x (fun '(d, o) => Ok (d, b :: o)) = Ok r ->
        exists y, x = Ok y).
      { intros [y|]; [eauto|discriminate]. }
      destruct Hcase as [[-> Hc]|(Hne & H1 & H2 & H3)].
      + cbn [length] in *. rewrite Nat.add_0_r in *. destruct f as [|f]; [discriminate|]. rewrite Hc.
        intros H. apply Hno' in H as [y Hy]. exact (IH s1 s2 o2 p f j Hs1 Hp1 E2 Ha1 Ht1 Hno Hj y Hy).
      + destruct f as [|[|f]]; [discriminate|rewrite H1; discriminate|].
        specialize (H3 ltac:(lia) f). cbn [Nat.add] in H3. rewrite H3.
        intros H. apply Hno' in H as [y Hy].
        refine (IH s1 s2 o2 _ _ _ Hs1 Hp1 E2 Ha1 Ht1 Hno _ y Hy). lia.
  Qed.

  Section message.
    Variables (fuel : nat) (m : S) (bits : list Z) (s' : @enc S) (out : list Z).
    Hypothesis Hpath : path_ok C N fuel (enc_init N m) bits.
    Hypothesis Henc : encode_all C N fuel (enc_init N m) bits = Ok (s', out).
    Let cbits := out ++ enc_flush N s'.
    Let st (i : nat) := nth i cbits 0.
    Let k0 := before_last C N fuel (enc_init N m) bits.
    Hypothesis HN3 : (3 <= N)%nat.

    Lemma cbits_whole : cbits = map st (seq 0 (length cbits)).
    Proof.
      pose proof (cbits_stream N HN s' out 0) as Hc. fold cbits in Hc. fold st in Hc.
      rewrite Nat.add_0_r, app_nil_r in Hc. auto.
    Qed.

    Lemma cbits_len : length cbits = (length out + 2)%nat.
    Proof. subst cbits. rewrite app_length, (flush_len C N HN fuel m bits s' out Henc). reflexivity. Qed.

    Lemma stream_last fuel0 J : bits <> [] ->
      (forall d o, decode_all C N (Datatypes.S fuel0) (dec_init m) (map st (seq 0 J)) = Ok (d, o) ->
        ((J < k0 + N)%nat -> (length o < length bits)%nat) /\ ((k0 + N <= J)%nat -> prefix bits o)) /\
      ((J < length out + N)%nat -> (length bits <= fuel0)%nat ->
        is_ok (decode_all C N (Datatypes.S fuel0) (dec_init m) (map st (seq 0 J)))).
    Proof.
      intros Hne. destruct (start_follow C N HN st m fuel0 N 0 J ltac:(lia) ltac:(lia)) as [S1 S2].
      change (Dec m 0 (2 ^ Z.of_nat 0) (win_n 0 st 0)) with (dec_init m) in *.
      assert (Hl : (1 <= length bits)%nat) by (destruct bits; [easy|cbn; lia]).
      destruct (Nat.lt_ge_cases J N) as [HJ|HJ].
      - destruct (S1 HJ) as [d' E']. rewrite E'. split; [|intros; eexists; reflexivity].
        intros d o [= _ <-]. split; [cbn; lia|lia].
      - rewrite S2 by lia.
        destruct (follow_last st fuel fuel0 (cbits_bits C N HN fuel m bits s' out Henc) bits (enc_init N m) s' out 0
          (Datatypes.S fuel0) (J - N) Hne (enc_init_ok N HN m) Hpath Henc (cbits_at N s' out) (cbits_tail N s' out))
          as [F1 F2].
        cbn [enc_init en_model en_low en_high Nat.add] in F1, F2. fold k0 in F1. split.
        + intros d o E. destruct (F1 _ _ E). split; intros.
          * apply H. lia.
          * apply H0. lia.
        + intros HJ' Hf. apply F2; lia.
    Qed.

    Lemma before_last_le : (k0 <= length out)%nat.
    Proof.
      assert (Hgen : forall l s s1 o, encode_all C N fuel s l = Ok (s1, o) ->
        (before_last C N fuel s l <= length o)%nat).
      { induction l as [|b l IH]; intros s s1 o E; [cbn; lia|].
        cbn [encode_all before_last] in *. destruct (encode C N fuel s b) as [[s2 o1]|]; [|discriminate].
        cbn [bind] in E. destruct (encode_all C N fuel s2 l) as [[s3 o2]|] eqn:E2; [|discriminate].
        cbn in E. injection E as <- <-. rewrite app_length. apply IH in E2.
        destruct l; [lia|]. lia. }
      exact (Hgen _ _ _ _ Henc).
    Qed.

    (** If the last symbol put out a bit, the decoder returns the message. *)
    Lemma decompress_last rounds fuel' :
      bits <> [] -> (k0 < length out)%nat -> (length bits < fuel')%nat -> (N <= rounds)%nat ->
      decompress C N rounds fuel' m cbits (Z.of_nat (length bits)) = Ok bits.
    Proof.
      intros Hne Hk Hf Hr. destruct fuel' as [|fuel0]; [lia|].
      enough (Hok : is_ok (decompress C N rounds (Datatypes.S fuel0) m cbits (Z.of_nat (length bits)))).
      { destruct Hok as [r Hok]. rewrite Hok. f_equal.
        eapply (decompress_safe C N HN fuel); eassumption. }
      pose proof cbits_len as Hlen. pose proof cbits_whole as Hc.
      unfold decompress.
      destruct (Nat.le_gt_cases (k0 + N) (length cbits)) as [Hcase|Hcase].
      - (* the message is complete before the flush *)
        destruct (stream_last fuel0 (length cbits) Hne) as [A1 A2].
        destruct (A2 ltac:(lia) ltac:(lia)) as [[d o] E]. destruct (A1 _ _ E) as [_ B].
        specialize (B ltac:(lia)). apply prefix_length in B. rewrite <- Hc in E. rewrite E. cbn [bind].
        unfold dec_flush.
        destruct (flush_term C N HN (Datatypes.S fuel0) 0 rounds d d []
          (Z.of_nat (length bits) - Z.of_nat (length o)) [] eq_refl) as [r ->]; [cbn; lia|lia|eexists; reflexivity].
      - set (i := (k0 + N - length cbits)%nat).
        destruct (stream_last fuel0 (length cbits + i) Hne) as [A1 A2].
        destruct (A2 ltac:(lia) ltac:(lia)) as [[d2 oo] E]. destruct (A1 _ _ E) as [_ B].
        specialize (B ltac:(lia)). apply prefix_length in B.
        pose proof (cbits_stream N HN s' out i) as Hst. fold cbits in Hst. fold st in Hst.
        rewrite Hst, (decode_all_app C N) in E.
        destruct (decode_all C N (Datatypes.S fuel0) (dec_init m) cbits) as [[d o]|] eqn:E1; [|discriminate].
        cbn [bind] in *.
        destruct (decode_all C N (Datatypes.S fuel0) d (repeat 0 i)) as [[s2 o2]|] eqn:E2; [|discriminate].
        cbn in E. injection E as <- <-. unfold dec_flush.
        destruct (flush_term C N HN (Datatypes.S fuel0) i rounds d s2 o2
          (Z.of_nat (length bits) - Z.of_nat (length o)) [] E2) as [r ->]; [|lia|eexists; reflexivity].
        cbn [app]. rewrite app_length in B. lia.
    Qed.

    (** If it did not, and the loop at the end never ends, the decoder never returns. *)
    Lemma decompress_hang rounds fuel' r :
      bits <> [] -> k0 = length out ->
      (forall F x, decode_loop C N F (en_model s') (en_low s') (en_high s')
         (if en_low s' <? q then q else half) <> Ok x) ->
      decompress C N rounds fuel' m cbits (Z.of_nat (length bits)) <> Ok r.
    Proof.
      intros Hne Hk Hno E. pose proof cbits_len as Hlen. pose proof cbits_whole as Hc.
      unfold decompress in E.
      destruct fuel' as [|fuel0].
      { destruct cbits as [|b c]; [cbn in Hlen; lia|]. cbn [decode_all decode] in E.
        unfold decode in E. destruct (dec_shift _ _ _ _ _) as [[? ?] ?]. discriminate. }
      destruct (decode_all C N (Datatypes.S fuel0) (dec_init m) cbits) as [[d o]|] eqn:E1; [|discriminate].
      cbn [bind] in E. unfold dec_flush in E.
      destruct (flush_loop _ _ _ _ _ _ _) as [o2|] eqn:E2; [|discriminate]. cbn [bind] in E.
      destruct (flush_sound C N _ _ _ _ _ _ E2) as (i & s2 & o3 & E3 & -> & Hn). cbn [app] in *.
      pose proof (cbits_stream N HN s' out i) as Hst. fold cbits in Hst. fold st in Hst.
      assert (Eall : decode_all C N (Datatypes.S fuel0) (dec_init m) (map st (seq 0 (length cbits + i)))
        = Ok (s2, o ++ o3)).
      { rewrite Hst, (decode_all_app C N), E1. cbn [bind]. rewrite E3. reflexivity. }
      destruct (Nat.lt_ge_cases (length cbits + i) (k0 + N)) as [Hi|Hi].
      - destruct (stream_last fuel0 (length cbits + i) Hne) as [A1 _].
        destruct (A1 _ _ Eall) as [B _]. specialize (B Hi). rewrite app_length in B. lia.
      - destruct (start_follow C N HN st m fuel0 N 0 (length cbits + i) ltac:(lia) ltac:(lia)) as [_ S2].
        change (Dec m 0 (2 ^ Z.of_nat 0) (win_n 0 st 0)) with (dec_init m) in *.
        rewrite S2 in Eall by lia.
        apply (follow_hang st fuel fuel0 (cbits_bits C N HN fuel m bits s' out Henc) bits (enc_init N m) s' out 0
          (Datatypes.S fuel0) (length cbits + i - N) (enc_init_ok N HN m) Hpath Henc
          (cbits_at N s' out) (cbits_tail N s' out)) in Eall; [exact Eall| |lia].
        intros F x. cbn [Nat.add].
        rewrite (flush_value N HN st (length out) s' (end_follow C N HN fuel m bits s' out Henc)
          (cbits_tail N s' out)). apply Hno.
    Qed.
  End message.
End last.
