(** The decoder follows the encoder as long as they split their intervals alike. *)
From Verif Require Import Spec.FloatsACSpec Proofs.PyFacts Proofs.ACFacts Proofs.ACDecode Proofs.ACRound.
Open Scope Z_scope.

Section prefix.
  Context {S : Type} (C : coder_model S) (N : nat).
  Hypothesis HN : (2 <= N)%nat.
  Local Notation top := (top N).
  Local Notation half := (half N).

  Lemma agree_path fuel : forall bits s, splits_agree C N fuel s bits -> path_ok C N fuel s bits.
  Proof.
    induction bits as [|b bits IH]; intros s H; [exact I|].
    destruct H as (Hb & m' & cut & E1 & E2 & E3 & Hc & H). split; [exact Hb|]. exists m', cut.
    repeat (split; [assumption|]). intros s' out E. apply IH. exact (H _ _ E).
  Qed.

  Lemma agree_inside fuel : forall bits s, splits_agree C N fuel s bits -> splits_inside C N fuel s bits.
  Proof.
    induction bits as [|b bits IH]; intros s H; [exact I|].
    destruct H as (Hb & m' & cut & E1 & E2 & E3 & Hc & H). split; [exact Hb|]. exists m', cut.
    repeat (split; [assumption|]). intros s' out E. apply IH. exact (H _ _ E).
  Qed.

  Lemma inside_value st fuel : all_bits st -> forall bits s s' out p,
    enc_ok N s -> splits_inside C N fuel s bits ->
    encode_all C N fuel s bits = Ok (s', out) -> at_pos st p out ->
    en_low s' <= win N st (p + length out) < en_high s' ->
    enc_ok N s' /\ en_low s <= win N st p < en_high s.
  Proof.
    intros Hst. induction bits as [|b bits IH]; intros s s' out p Hs Hp E Ha Ht.
    - injection E as <- <-. cbn [length] in Ht. rewrite Nat.add_0_r in Ht. auto.
    - cbn [encode_all] in E. destruct (encode C N fuel s b) as [[s1 o1]|e] eqn:E1; [|discriminate].
      cbn [bind] in E. destruct (encode_all C N fuel s1 bits) as [[s2 o2]|e] eqn:E2; [|discriminate].
      cbn in E. injection E as <- <-.
      destruct Hp as (Hb & m' & cut & Ec & Hc & Hp). specialize (Hp _ _ E1).
      destruct (encode_inv C N _ _ _ _ _ E1) as (m1 & cut1 & Ec1 & Hm & Er).
      rewrite Ec in Ec1. injection Ec1 as <- <-.
      destruct Hs as [[Hl Hh] Hf]. rewrite Hf in Er.
      apply (at_pos_app N HN) in Ha as [Ha1 Ha2]. rewrite app_length, Nat.add_assoc in Ht.
      assert (Hlow : 0 <= (if b =? 0 then en_low s else en_low s + cut)) by (destruct (b =? 0); lia).
      assert (Hhigh : (if b =? 0 then en_low s + cut else en_high s) <= top) by (destruct (b =? 0); lia).
      assert (Hs1 : enc_ok N s1).
      { split; [eapply (renorm_straddles N HN); eassumption|].
        apply (renorm_bits N HN) in Er. apply Er. }
      destruct (IH s1 s2 o2 (p + length o1)%nat Hs1 Hp E2 Ha2 Ht) as [Hs2 Hv].
      split; [exact Hs2|].
      pose proof (renorm_value N HN st _ Hst _ _ _ _ _ _ _ Er Ha1 Hv) as Hv0.
      destruct (b =? 0); lia.
  Qed.

  (** What the decoder returns after reading [j] bits beyond its window, when the bits after those of
      [out] lead into the encoder's interval. *)
  Lemma follow_part st fuel fuel0 : all_bits st -> forall bits s s' out p f j,
    enc_ok N s -> path_ok C N fuel s bits -> splits_inside C N fuel s bits ->
    encode_all C N fuel s bits = Ok (s', out) -> at_pos st p out ->
    en_low s' <= win N st (p + length out) < en_high s' ->
    forall d o,
      dec_cont C N f (Datatypes.S fuel0) (en_model s) (en_low s) (en_high s) (win N st p)
        (map st (seq (p + N) j)) = Ok (d, o) ->
      ((j < length out)%nat -> prefix o bits) /\ ((length out <= j)%nat -> prefix bits o).
  Proof.
    intros Hst. induction bits as [|b bits IH]; intros s s' out p f j Hs Hp Hi E Ha Ht.
    - injection E as <- <-. cbn [length] in *.
      intros d o _. split; [lia|]. intros _. exists o. reflexivity.
    - pose proof (inside_value st fuel Hst (b :: bits) s s' out p Hs Hi E Ha Ht) as [_ Hv].
      cbn [encode_all] in E. destruct (encode C N fuel s b) as [[s1 o1]|e] eqn:E1; [|discriminate].
      cbn [bind] in E. destruct (encode_all C N fuel s1 bits) as [[s2 o2]|e] eqn:E2; [|discriminate].
      cbn in E. injection E as <- <-.
      destruct Hi as (_ & mi & ci & _ & _ & Hi). specialize (Hi _ _ E1). clear mi ci.
      destruct Hp as (Hb & m' & cut & Ec & Ed & Eu & Hc & Hp). specialize (Hp _ _ E1).
      destruct (encode_inv C N _ _ _ _ _ E1) as (m1 & cut1 & Ec1 & Hm & Er).
      rewrite Ec in Ec1. injection Ec1 as <- <-.
      pose proof Hs as [[Hl Hh] Hf]. rewrite Hf in Er.
      apply (at_pos_app N HN) in Ha as [Ha1 Ha2]. rewrite app_length, Nat.add_assoc in Ht.
      assert (Hlow : 0 <= (if b =? 0 then en_low s else en_low s + cut)) by (destruct (b =? 0); lia).
      assert (Hhigh : (if b =? 0 then en_low s + cut else en_high s) <= top) by (destruct (b =? 0); lia).
      assert (Hs1 : enc_ok N s1).
      { split; [eapply (renorm_straddles N HN); eassumption|].
        apply (renorm_bits N HN) in Er. apply Er. }
      pose proof (inside_value st fuel Hst bits s1 s2 o2 _ Hs1 Hi E2 Ha2 Ht) as [_ Hv1].
      pose proof (renorm_value N HN st _ Hst _ _ _ _ _ _ _ Er Ha1 Hv1) as Hv0.
      assert (Hsym : b = 0 /\ win N st p < en_low s + cut \/ b = 1 /\ en_low s + cut <= win N st p).
      { destruct Hb as [-> | ->]; cbn in Hv0; lia. }
      assert (Hrest : forall f,
        dec_cont C N (Datatypes.S f) (Datatypes.S fuel0) (en_model s) (en_low s) (en_high s) (win N st p)
          (map st (seq (p + N) j)) =
        do (d, o) <- dec_cont C N f (Datatypes.S fuel0) m' (if b =? 0 then en_low s else en_low s + cut)
          (if b =? 0 then en_low s + cut else en_high s) (win N st p) (map st (seq (p + N) j));
        Ok (d, b :: o)).
      { intros f'. unfold dec_cont at 1.
        rewrite (decode_loop_straddle C N HN f' _ _ _ _ cut m' b) by (assumption || lia).
        unfold dec_cont.
        destruct (decode_loop C N f' m' _ _ _) as [[[[m2 l2] h2] o2']|]; [|reflexivity]. cbn [bind].
        destruct (decode_all _ _ _ _ _) as [[d3 o3]|]; reflexivity. }
      assert (Hcases : o1 = [] /\ en_low s1 = (if b =? 0 then en_low s else en_low s + cut) /\
                en_high s1 = (if b =? 0 then en_low s + cut else en_high s) \/
              o1 <> [] /\ apart N (if b =? 0 then en_low s else en_low s + cut)
                (if b =? 0 then en_low s + cut else en_high s)).
      { clear - Er HN. destruct fuel as [|fuel]; [discriminate|]. rewrite (renorm_step N HN) in Er.
        match type of Er with (if ?h <=? _ then _ else _) = _ => destruct (Z.leb_spec h half) as [Hc|Hc] end.
        - right. split; [|left; exact Hc]. destruct (renorm N fuel _ _ 0) as [[[[? ?] ?] ?]|]; [|discriminate].
          cbn in Er. injection Er as _ _ _ <-. discriminate.
        - rewrite Z.geb_leb in Er.
          match type of Er with (if half <=? ?l then _ else _) = _ => destruct (Z.leb_spec half l) as [Hc'|Hc'] end.
          + right. split; [|right; exact Hc']. destruct (renorm N fuel _ _ 0) as [[[[? ?] ?] ?]|]; [|discriminate].
            cbn in Er. injection Er as _ _ _ <-. discriminate.
          + injection Er as <- <- _ <-. left. auto. }
      subst m'. destruct Hcases as [(-> & El & Eh)|(Hne & Hap)].
      + cbn [length app] in *. rewrite Nat.add_0_r in *. rewrite <- El, <- Eh in Hrest.
        intros d o Hd. destruct f as [|f]; [discriminate|]. rewrite Hrest in Hd.
        match type of Hd with bind ?x _ = _ => destruct x as [[d1 o1']|] eqn:Ed1; [|discriminate] end.
        cbn in Hd. injection Hd as <- <-.
        destruct (IH s1 s2 o2 p f j Hs1 Hp Hi E2 Ha2 Ht _ _ Ed1) as [H1 H2]. split; intros Hj.
        * destruct (H1 Hj) as [t ->]. exists t. reflexivity.
        * destruct (H2 Hj) as [t ->]. exists t. reflexivity.
      + assert (Hlen1 : (1 <= length o1)%nat) by (destruct o1; [easy|cbn; lia]).
        pose (low1 := if b =? 0 then en_low s else en_low s + cut); fold low1 in Er, Hlow, Hap, Hrest, Hv0.
        pose (high1 := if b =? 0 then en_low s + cut else en_high s); fold high1 in Er, Hhigh, Hap, Hrest, Hv0.
        destruct (renorm_follow C N HN st fuel0 Hst fuel low1 high1 _ _ _ o1 p
          (Dec (en_model s1) low1 high1 (win N st p)) (en_model s1) j Er Ha1 Hv1 Hlow Hhigh Hap) as [R1 R2].
        { split; [reflexivity|]. exists 0. cbn. split; [now left|]. lia. }
        assert (Hrest' : forall f,
          dec_cont C N (Datatypes.S f) (Datatypes.S fuel0) (en_model s1) low1 high1 (win N st p)
            (map st (seq (p + N) j)) =
          decode_all C N (Datatypes.S fuel0) (Dec (en_model s1) low1 high1 (win N st p)) (map st (seq (p + N) j))).
        { intros f'. unfold dec_cont. rewrite (loop_apart C N HN) by exact Hap. cbn [bind].
          destruct (decode_all _ _ _ _ _) as [[? ?]|]; reflexivity. }
        rewrite app_length. intros d o Hd.
        destruct f as [|[|f]]; [discriminate|rewrite Hrest in Hd; discriminate|].
        rewrite Hrest, Hrest' in Hd.
        destruct (Nat.lt_ge_cases j (length o1)) as [Hj|Hj].
        { destruct (R1 Hj) as [d' Ed']. rewrite Ed' in Hd. cbn in Hd. injection Hd as <- <-.
          split; [|lia]. intros _. exists bits. reflexivity. }
        rewrite (R2 Hj) in Hd.
        match type of Hd with bind ?x _ = _ => destruct x as [[d1 o1']|] eqn:Ed1; [|discriminate] end.
        cbn in Hd. injection Hd as <- <-.
        destruct (IH s1 s2 o2 (p + length o1)%nat _ _ Hs1 Hp Hi E2 Ha2 Ht _ _ Ed1) as [H1 H2]. split; intros Hj2.
        * destruct (H1 ltac:(lia)) as [t ->]. exists t. reflexivity.
        * destruct (H2 ltac:(lia)) as [t ->]. exists t. reflexivity.
  Qed.
End prefix.

Section message.
  Context {S : Type} (C : coder_model S) (N : nat).
  Hypothesis HN3 : (3 <= N)%nat.

  Lemma inside_app fuel pre : forall s post, splits_inside C N fuel s (pre ++ post) ->
    forall s1 o1, encode_all C N fuel s pre = Ok (s1, o1) -> splits_inside C N fuel s1 post.
  Proof.
    induction pre as [|b pre IH]; intros s post H s1 o1 E.
    - injection E as <- <-. exact H.
    - cbn [encode_all] in E. destruct (encode C N fuel s b) as [[s' o']|e] eqn:E1; [|discriminate].
      cbn [bind] in E. destruct (encode_all C N fuel s' pre) as [[s2 o2]|e] eqn:E2; [|discriminate].
      injection E as <- <-. destruct H as (_ & _ & _ & _ & _ & H). exact (IH _ _ (H _ _ E1) _ _ E2).
  Qed.

  Lemma inside_app_l fuel pre : forall s post, splits_inside C N fuel s (pre ++ post) -> splits_inside C N fuel s pre.
  Proof.
    induction pre as [|b pre IH]; intros s post H; [exact I|].
    destruct H as (Hb & m' & cut & E & Hc & H). split; [exact Hb|]. exists m', cut. split; [exact E|]. split; [exact Hc|].
    intros s' out E1. exact (IH _ _ (H _ _ E1)).
  Qed.

  Lemma inside_ok (HN : (2 <= N)%nat) fuel bits : forall s s' out,
    enc_ok N s -> splits_inside C N fuel s bits -> encode_all C N fuel s bits = Ok (s', out) -> enc_ok N s'.
  Proof.
    induction bits as [|b bits IH]; intros s s' out Hs Hp E.
    - injection E as <- <-. exact Hs.
    - cbn [encode_all] in E. destruct (encode C N fuel s b) as [[s1 o1]|e] eqn:E1; [|discriminate].
      cbn [bind] in E. destruct (encode_all C N fuel s1 bits) as [[s2 o2]|e] eqn:E2; [|discriminate].
      cbn in E. injection E as <- <-.
      destruct Hp as (Hb & m' & cut & Ec & Hc & Hp). specialize (Hp _ _ E1).
      destruct (encode_inv C N _ _ _ _ _ E1) as (m1 & cut1 & Ec1 & Hm & Er).
      rewrite Ec in Ec1. injection Ec1 as <- <-.
      destruct Hs as [[Hl Hh] Hf]. rewrite Hf in Er. apply (IH s1 s2 o2); [|exact Hp|exact E2].
      assert (Hlow : 0 <= (if b =? 0 then en_low s else en_low s + cut)) by (destruct (b =? 0); lia).
      assert (Hhigh : (if b =? 0 then en_low s + cut else en_high s) <= top N) by (destruct (b =? 0); lia).
      split; [eapply (renorm_straddles N HN); eassumption|].
      apply (renorm_bits N HN) in Er. apply Er.
  Qed.

  Lemma encode_all_app fuel pre : forall s post,
    encode_all C N fuel s (pre ++ post) =
    do (s1, o1) <- encode_all C N fuel s pre; do (s2, o2) <- encode_all C N fuel s1 post; Ok (s2, o1 ++ o2).
  Proof.
    induction pre as [|b pre IH]; intros s post; cbn [app encode_all].
    - cbn [bind]. destruct (encode_all C N fuel s post) as [[s2 o2]|]; reflexivity.
    - destruct (encode C N fuel s b) as [[s' o']|e]; [|reflexivity]. cbn [bind]. rewrite IH.
      destruct (encode_all C N fuel s' pre) as [[s2 o2]|]; [|reflexivity]. cbn [bind].
      destruct (encode_all C N fuel s2 post) as [[s3 o3]|]; [|reflexivity]. cbn [bind]. now rewrite app_assoc.
  Qed.

  Lemma prefix_both (a b l : list Z) : prefix a l -> prefix b l -> (length a <= length b)%nat -> prefix a b.
  Proof.
    revert b l. induction a as [|x a IH]; intros b l [t Ht] [t' Ht'] Hl; [exists b; reflexivity|].
    destruct b as [|y b]; [cbn in Hl; lia|]. subst l. cbn in Ht'. injection Ht' as <- Ht'.
    destruct (IH b (a ++ t)) as [u ->]; [exists t; reflexivity|exists t'; exact Ht'|cbn in Hl; lia|]. exists u. reflexivity.
  Qed.

  (** What is decoded begins with the part of the message on which encoder and decoder split alike. *)
  Lemma decoded_part fuel m pre post code rounds fuel' r :
    splits_agree C N fuel (enc_init N m) pre -> splits_inside C N fuel (enc_init N m) (pre ++ post) ->
    compress C N fuel m (pre ++ post) = Ok code ->
    decompress C N rounds fuel' m code (Z.of_nat (length (pre ++ post))) = Ok r ->
    prefix pre r.
  Proof.
    intros Ha Hi Ec Er. assert (HN : (2 <= N)%nat) by lia.
    unfold compress in Ec. destruct (encode_all C N fuel (enc_init N m) (pre ++ post)) as [[s' out]|e] eqn:E; [|discriminate].
    cbn [bind] in Ec. injection Ec as <-.
    set (cbits := out ++ enc_flush N s') in *. set (st := fun i => nth i cbits 0).
    pose proof (cbits_bits C N HN fuel m (pre ++ post) s' out E) as Hst. fold cbits in Hst.
    change (all_bits st) in Hst.
    pose proof (cbits_at N s' out) as Hat. fold cbits in Hat. change (at_pos st 0 out) in Hat.
    pose proof (cbits_tail N s' out) as Htl. fold cbits in Htl. change (tail_at N st (0 + length out) s') in Htl.
    pose proof E as E'. rewrite encode_all_app in E'.
    destruct (encode_all C N fuel (enc_init N m) pre) as [[s1 o1]|e] eqn:E1; [|discriminate]. cbn [bind] in E'.
    destruct (encode_all C N fuel s1 post) as [[s2 o2]|e] eqn:E2; [|discriminate]. cbn [bind] in E'. injection E' as -> <-.
    apply (at_pos_app N HN) in Hat as [Hat1 Hat2]. rewrite app_length in Htl.
    assert (Hs1 : enc_ok N s1).
    { eapply inside_ok. exact HN. apply (enc_init_ok N HN m). 2: exact E1. eapply inside_app_l. exact Hi. }
    assert (Hs2 : enc_ok N s').
    { eapply inside_ok. exact HN. exact Hs1. 2: exact E2. eapply inside_app. exact Hi. exact E1. }
    assert (Hv1 : en_low s1 <= win N st (0 + length o1) < en_high s1).
    { eapply (inside_value C N HN st fuel Hst post s1 s' o2 _ Hs1); [|exact E2|exact Hat2|].
      - eapply inside_app; [exact Hi|exact E1].
      - apply (flush_in N HN); [exact Hs2|]. rewrite <- Nat.add_assoc. exact Htl. }
    (* the decoder over any number of bits *)
    assert (Hne : cbits <> []).
    { intros H. apply (f_equal (@length Z)) in H. subst cbits. rewrite app_length in H. unfold enc_flush in H.
      destruct (en_low s' <? q1_4 N); cbn in H; lia. }
    unfold decompress in Er. destruct fuel' as [|fuel0].
    { destruct cbits as [|b c]; [now destruct Hne|]. cbn [decode_all] in Er.
      unfold decode in Er. destruct (dec_shift _ _ _ _ _) as [[? ?] ?]. discriminate. }
    assert (Hall : forall J d o, decode_all C N (Datatypes.S fuel0) (dec_init m) (map st (seq 0 J)) = Ok (d, o) ->
      prefix o pre \/ prefix pre o).
    { intros J d o Ed. destruct (start_follow C N HN st m fuel0 N 0 J ltac:(lia) ltac:(lia)) as [S1 S2].
      change (Dec m 0 (2 ^ Z.of_nat 0) (win_n 0 st 0)) with (dec_init m) in *.
      destruct (Nat.lt_ge_cases J N) as [HJ|HJ].
      - destruct (S1 HJ) as [d' Ed']. rewrite Ed' in Ed. injection Ed as _ <-. left. exists pre. reflexivity.
      - rewrite S2 in Ed by lia.
        destruct (follow_part C N HN st fuel fuel0 Hst pre (enc_init N m) s1 o1 0 (Datatypes.S fuel0) (J - N)
          (enc_init_ok N HN m) (agree_path C N fuel _ _ Ha) (agree_inside C N fuel _ _ Ha) E1 Hat1 Hv1 d o) as [F1 F2].
        + cbn [enc_init en_model en_low en_high Nat.add]. exact Ed.
        + destruct (Nat.lt_ge_cases (J - N) (length o1)); [left; auto|right; auto]. }
    destruct (decode_all C N (Datatypes.S fuel0) (dec_init m) cbits) as [[d o]|] eqn:Ed; [|discriminate].
    cbn [bind] in Er. unfold dec_flush in Er.
    destruct (flush_loop _ _ _ _ _ _ _) as [o2'|] eqn:Ef; [|discriminate]. cbn [bind] in Er. injection Er as <-.
    destruct (flush_sound C N _ _ _ _ _ _ Ef) as (i & s3 & o3 & Ed3 & -> & Hn). cbn [app] in *.
    assert (Eall : decode_all C N (Datatypes.S fuel0) (dec_init m) (map st (seq 0 (length cbits + i))) = Ok (s3, o ++ o3)).
    { pose proof (cbits_stream N HN s' (o1 ++ o2) i) as Hcs. fold cbits in Hcs. change (fun i => nth i cbits 0) with st in Hcs.
      rewrite Hcs, decode_all_app, Ed. cbn [bind]. rewrite Ed3. reflexivity. }
    assert (Hp : prefix pre (o ++ o3)).
    { destruct (Hall _ _ _ Eall) as [[t Ht]|]; [|assumption]. exists []. rewrite app_nil_r.
      pose proof (f_equal (@length Z) Ht) as HL. rewrite !app_length in *.
      destruct t; [now rewrite app_nil_r in Ht|cbn in *; lia]. }
    rewrite app_length in *.
    unfold slice_to, slice_start. set (n := Z.of_nat (length pre + length post) - Z.of_nat (length o)) in *.
    apply prefix_both with (o ++ o3); [exact Hp| |].
    - eexists. rewrite <- app_assoc. f_equal. symmetry. apply firstn_skipn.
    - rewrite app_length, firstn_length. destruct (Z.ltb_spec n 0); lia.
  Qed.
End message.
