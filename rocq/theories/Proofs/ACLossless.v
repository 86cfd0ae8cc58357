(** The arithmetic encoder: it always returns, and different messages get different codes. *)
From Coq Require Import Lra.
From Verif Require Import Spec.ACSpec Proofs.PyFacts Proofs.RealFacts Proofs.ACFacts Proofs.ACDecode Proofs.ACRound Proofs.ACModel Proofs.ACLength.
Open Scope Z_scope.

Lemma renorm_mono N fuel fuel' : (fuel <= fuel')%nat -> forall low high f r,
  renorm N fuel low high f = Ok r -> renorm N fuel' low high f = Ok r.
Proof.
  revert fuel'. induction fuel as [|fuel IH]; intros fuel' Hf low high f r E; [discriminate|].
  destruct fuel' as [|fuel']; [lia|]. cbn [renorm] in *.
  destruct (high <=? half N).
  - destruct (renorm N fuel (low * 2) (high * 2) 0) as [x|] eqn:Ex; [|discriminate].
    rewrite (IH fuel' ltac:(lia) _ _ _ _ Ex). exact E.
  - destruct (low >=? half N).
    + destruct (renorm N fuel ((low - half N) * 2) ((high - half N) * 2) 0) as [x|] eqn:Ex; [|discriminate].
      rewrite (IH fuel' ltac:(lia) _ _ _ _ Ex). exact E.
    + destruct ((low >=? q1_4 N) && (high <=? enc_q3_4 N)); [apply (IH fuel' ltac:(lia) _ _ _ _ E)|exact E].
Qed.

Lemma encode_mono {S} (C : coder_model S) N fuel fuel' s b r : (fuel <= fuel')%nat ->
  encode C N fuel s b = Ok r -> encode C N fuel' s b = Ok r.
Proof.
  intros Hf. unfold encode. destruct (cm_enc C (en_model s) b (en_high s - en_low s)) as [[m' cut]|]; [|discriminate].
  cbn [bind]. destruct (b =? 0).
  - destruct (renorm N fuel (en_low s) (en_low s + cut) (en_follow s)) as [x|] eqn:Ex; [|discriminate].
    intros E. rewrite (renorm_mono N fuel fuel' Hf _ _ _ _ Ex). exact E.
  - destruct (renorm N fuel (en_low s + cut) (en_high s) (en_follow s)) as [x|] eqn:Ex; [|discriminate].
    intros E. rewrite (renorm_mono N fuel fuel' Hf _ _ _ _ Ex). exact E.
Qed.

Lemma encode_all_mono {S} (C : coder_model S) N fuel fuel' bits : (fuel <= fuel')%nat -> forall s r,
  encode_all C N fuel s bits = Ok r -> encode_all C N fuel' s bits = Ok r.
Proof.
  intros Hf. induction bits as [|b bits IH]; intros s r E; [exact E|]. cbn [encode_all] in *.
  destruct (encode C N fuel s b) as [[s1 o1]|] eqn:E1; [|discriminate].
  rewrite (encode_mono C N fuel fuel' s b _ Hf E1). cbn [bind] in *.
  destruct (encode_all C N fuel s1 bits) as [[s2 o2]|] eqn:E2; [|discriminate].
  rewrite (IH _ _ E2). exact E.
Qed.

Lemma compress_mono {S} (C : coder_model S) N fuel fuel' m bits r : (fuel <= fuel')%nat ->
  compress C N fuel m bits = Ok r -> compress C N fuel' m bits = Ok r.
Proof.
  intros Hf. unfold compress. destruct (encode_all C N fuel (enc_init N m) bits) as [x|] eqn:E; [|discriminate].
  rewrite (encode_all_mono C N fuel fuel' bits Hf _ _ E). trivial.
Qed.

  Lemma flush_bits {S} N (s : @enc S) : en_follow s = 0%nat -> Forall is_bit (enc_flush N s) /\ length (enc_flush N s) = 2%nat.
  Proof.
    intros E. unfold enc_flush. rewrite E. destruct (en_low s <? q1_4 N); cbn;
      (split; [repeat apply Forall_cons; try apply Forall_nil; unfold is_bit; lia|reflexivity]).
  Qed.

Section lossless.
  Context {S : Type} (M : model S) (Inv : S -> Prop) (N fuel : nat).
  Hypothesis HN : (2 <= N)%nat.
  Hypothesis Hfu : (N < fuel)%nat.
  Hypothesis HM : coherent M Inv.
  Local Notation C := (coder_of M).

  Lemma coherent_bit s b : Inv s -> is_bit b ->
    exists s' l, m_update M s b [] 1%R = Ok (s', l) /\ (l <= 0)%R /\ Inv s'.
  Proof.
    intros Hs Hb. destruct (HM s Hs) as (s0 & l0 & s1 & l1 & E0 & E1 & I0 & I1 & Hsum).
    pose proof (exp_pos l0). pose proof (exp_pos l1).
    assert (Hle : forall l, (exp l <= 1)%R -> (l <= 0)%R).
    { intros l Hl. destruct (Rle_or_lt l 0) as [|H']; [assumption|].
      apply exp_increasing in H'. rewrite exp_0 in H'. lra. }
    destruct Hb as [-> | ->]; [exists s0, l0|exists s1, l1]; (split; [assumption|split; [apply Hle; lra|assumption]]).
  Qed.

  Lemma coherent_at_most_one : at_most_one M Inv.
  Proof.
    intros s b s' l Hs Hb E. destruct (coherent_bit s b Hs Hb) as (s2 & l2 & E2 & Hl & Hi).
    rewrite E in E2. injection E2 as <- <-. now split.
  Qed.

  Lemma encode_all_ok bits : Forall is_bit bits -> forall s, enc_ok N s -> Inv (en_model s) ->
    exists s' out, encode_all C N fuel s bits = Ok (s', out) /\ enc_ok N s' /\ Inv (en_model s') /\ Forall is_bit out.
  Proof.
    induction 1 as [|b bits Hb _ IH]; intros s Hs Hi.
    - exists s, []. repeat split; try assumption; try apply Hs. constructor.
    - destruct (coherent_bit _ b Hi Hb) as (m' & l & E & Hl & Hi').
      destruct (proj1 (working_ok N HN s) Hs) as [W F] || destruct (proj2 (working_ok N HN s) Hs) as [W F].
      destruct (encode_progress M N fuel s b m' l HN Hfu W F Hb E Hl) as (s1 & o1 & E1 & W1 & F1 & Em & B1 & _).
      destruct (IH s1) as (s2 & o2 & E2 & Hs2 & Hi2 & B2).
      { apply (working_ok N HN); now split. } { now rewrite Em. }
      exists s2, (o1 ++ o2). cbn [encode_all]. rewrite E1. cbn [bind]. rewrite E2. cbn [bind].
      split; [reflexivity|]. split; [exact Hs2|]. split; [exact Hi2|]. apply Forall_app. now split.
  Qed.

  (** The value of the code, with zeros after it, lies in the interval of the message's first symbol. *)
  Definition tail_of (st : nat -> Z) (p : nat) (l : list Z) : Prop := forall i, st (p + i)%nat = nth i l 0.

  Lemma tail_app st p l l' : tail_of st p (l ++ l') -> at_pos st p l /\ tail_of st (p + length l) l'.
  Proof.
    intros H. split.
    - intros i Hi. rewrite H. now rewrite app_nth1.
    - intros i. rewrite <- Nat.add_assoc, H. apply app_nth2_plus.
  Qed.

  Lemma value_in st : all_bits st -> forall bits, Forall is_bit bits -> forall s s' out p, enc_ok N s -> Inv (en_model s) ->
    encode_all C N fuel s bits = Ok (s', out) -> tail_of st p (out ++ enc_flush N s') ->
    en_low s <= win N st p < en_high s.
  Proof.
    intros Hst bits Hb. induction Hb as [|b bits Hb _ IH]; intros s s' out p Hs Hi E Ht; cbn [encode_all] in E.
    - injection E as <- <-. now apply (flush_in N HN st p s Hs).
    - destruct (encode C N fuel s b) as [[s1 o1]|] eqn:E1; [|discriminate]. cbn [bind] in E.
      destruct (encode_all C N fuel s1 bits) as [[s2 o2]|] eqn:E2; [|discriminate]. cbn [bind] in E. injection E as <- <-.
      destruct (encode_range M Inv N fuel HN Hfu coherent_at_most_one s b s1 o1 Hs Hi Hb E1)
        as (m' & cut & Ec & Hs1 & Hi1 & Hp & _).
      rewrite <- app_assoc in Ht. apply tail_app in Ht as [Ha Ht].
      specialize (IH s1 s2 o2 (p + length o1)%nat Hs1 Hi1 E2 Ht).
      destruct (encode_inv _ _ _ _ _ _ _ E1) as (m2 & cut2 & Ec2 & _ & Er).
      rewrite Ec in Ec2. injection Ec2 as <- <-. destruct Hs as [_ F]. rewrite F in Er.
      pose proof (renorm_value N HN st fuel Hst _ _ _ _ _ _ p Er Ha IH) as Hv.
      unfold part in Hp. destruct (b =? 0); lia.
  Qed.

  Lemma value_first st : all_bits st -> forall b bits s s' out p, is_bit b -> Forall is_bit bits -> enc_ok N s -> Inv (en_model s) ->
    encode_all C N fuel s (b :: bits) = Ok (s', out) -> tail_of st p (out ++ enc_flush N s') ->
    exists m' cut s1 o1 o2, cm_enc C (en_model s) b (en_high s - en_low s) = Ok (m', cut) /\
      encode C N fuel s b = Ok (s1, o1) /\ encode_all C N fuel s1 bits = Ok (s', o2) /\ enc_ok N s1 /\ Inv (en_model s1) /\
      tail_of st (p + length o1) (o2 ++ enc_flush N s') /\
      (if b =? 0 then win N st p < en_low s + cut else en_low s + cut <= win N st p).
  Proof.
    intros Hst b bits s s' out p Hb Hbs Hs Hi E Ht. cbn [encode_all] in E.
    destruct (encode C N fuel s b) as [[s1 o1]|] eqn:E1; [|discriminate]. cbn [bind] in E.
    destruct (encode_all C N fuel s1 bits) as [[s2 o2]|] eqn:E2; [|discriminate]. cbn [bind] in E. injection E as <- <-.
    destruct (encode_range M Inv N fuel HN Hfu coherent_at_most_one s b s1 o1 Hs Hi Hb E1)
      as (m' & cut & Ec & Hs1 & Hi1 & Hp & _).
    rewrite <- app_assoc in Ht. apply tail_app in Ht as [Ha Ht].
    pose proof (value_in st Hst bits Hbs s1 s2 o2 _ Hs1 Hi1 E2 Ht) as Hv.
    destruct (encode_inv _ _ _ _ _ _ _ E1) as (m2 & cut2 & Ec2 & _ & Er).
    rewrite Ec in Ec2. injection Ec2 as <- <-. destruct Hs as [_ F]. rewrite F in Er.
    pose proof (renorm_value N HN st fuel Hst _ _ _ _ _ _ p Er Ha Hv) as Hv'.
    exists m', cut, s1, o1, o2. repeat (split; [assumption || reflexivity|]). destruct (b =? 0); lia.
  Qed.

  Lemma cuts_equal s r m0 c0 m1 c1 : Inv s ->
    cm_enc C s 0 r = Ok (m0, c0) -> cm_enc C s 1 r = Ok (m1, c1) -> c0 = c1.
  Proof.
    intros Hi E0 E1. destruct (HM s Hi) as (s0 & l0 & s1 & l1 & U0 & U1 & _ & _ & Hsum).
    unfold coder_of in E0, E1. cbn [cm_enc] in E0, E1. rewrite U0 in E0. rewrite U1 in E1. cbn [bind Z.eqb] in E0, E1.
    injection E0 as _ <-. injection E1 as _ <-. replace (1 - exp l1)%R with (exp l0) by lra. reflexivity.
  Qed.

  Lemma lossless_from st : all_bits st -> forall bits, Forall is_bit bits -> forall bits' s s1 s2 o1 o2 p, Forall is_bit bits' ->
    length bits = length bits' -> enc_ok N s -> Inv (en_model s) ->
    encode_all C N fuel s bits = Ok (s1, o1) -> encode_all C N fuel s bits' = Ok (s2, o2) ->
    tail_of st p (o1 ++ enc_flush N s1) -> tail_of st p (o2 ++ enc_flush N s2) -> bits = bits'.
  Proof.
    intros Hst bits Hb. induction Hb as [|b bits Hb Hbs IH]; intros bits' s s1 s2 o1 o2 p Hb' Hl Hs Hi E1 E2 T1 T2.
    - destruct bits'; [reflexivity|discriminate].
    - destruct bits' as [|b' bits']; [discriminate|]. inversion_clear Hb' as [|? ? Hb1 Hbs'].
      destruct (value_first st Hst b bits s s1 o1 p Hb Hbs Hs Hi E1 T1) as (m1 & c1 & x1 & y1 & z1 & C1 & F1 & G1 & Ok1 & I1 & U1 & V1).
      destruct (value_first st Hst b' bits' s s2 o2 p Hb1 Hbs' Hs Hi E2 T2) as (m2 & c2 & x2 & y2 & z2 & C2 & F2 & G2 & Ok2 & I2 & U2 & V2).
      assert (b = b') as <-.
      { destruct Hb as [-> | ->], Hb1 as [-> | ->]; try reflexivity; cbn [Z.eqb] in V1, V2.
        - pose proof (cuts_equal _ _ _ _ _ _ Hi C1 C2). lia.
        - pose proof (cuts_equal _ _ _ _ _ _ Hi C2 C1). lia. }
      rewrite F1 in F2. injection F2 as <- <-. f_equal.
      injection Hl as Hl. apply (IH bits' x1 s1 s2 z1 z2 (p + length y1)%nat); assumption.
  Qed.
End lossless.

Lemma nth_zeros (l : list Z) k i : nth i (l ++ repeat 0 k) 0 = nth i l 0.
Proof.
  destruct (Nat.lt_ge_cases i (length l)) as [H|H]; [now apply app_nth1|].
  rewrite app_nth2 by lia. rewrite (nth_overflow l) by lia. apply nth_repeat.
Qed.

Lemma same_code_nth c c' : same_code c c' -> forall i, nth i c 0 = nth i c' 0.
Proof.
  intros (k & k' & E) i. rewrite <- (nth_zeros c k i), E. apply nth_zeros.
Qed.

Lemma compress_total {S} (M : model S) Inv N m bits : (2 <= N)%nat -> coherent M Inv ->
  Inv m -> Forall is_bit bits ->
  exists code, Forall is_bit code /\ forall fuel', (N < fuel')%nat -> compress (coder_of M) N fuel' m bits = Ok code.
Proof.
  intros HN HM Hm Hb.
  destruct (encode_all_ok M Inv N (Datatypes.S N) HN ltac:(lia) HM bits Hb (enc_init N m) (enc_init_ok N HN m) Hm) as (s & out & E & Hs & _ & B).
  exists (out ++ enc_flush N s). split.
  - apply Forall_app. split; [exact B|]. exact (proj1 (flush_bits N s (proj2 Hs))).
  - intros fuel' Hf'. apply (compress_mono _ N (Datatypes.S N) fuel'); [lia|]. unfold compress. now rewrite E.
Qed.

Lemma lossless {S} (M : model S) Inv N fuel m bits bits' code code' : (2 <= N)%nat -> (N < fuel)%nat -> coherent M Inv ->
  Inv m -> Forall is_bit bits -> Forall is_bit bits' -> length bits = length bits' ->
  compress (coder_of M) N fuel m bits = Ok code -> compress (coder_of M) N fuel m bits' = Ok code' ->
  same_code code code' -> bits = bits'.
Proof.
  intros HN Hf HM Hm Hb Hb' Hl E E' Hsame.
  destruct (encode_all_ok M Inv N fuel HN Hf HM bits Hb (enc_init N m) (enc_init_ok N HN m) Hm) as (s & o & Eo & Hs & _ & Bo).
  destruct (encode_all_ok M Inv N fuel HN Hf HM bits' Hb' (enc_init N m) (enc_init_ok N HN m) Hm) as (s' & o' & Eo' & Hs' & _ & Bo').
  unfold compress in E, E'. rewrite Eo in E. rewrite Eo' in E'. cbn [bind] in E, E'. injection E as <-. injection E' as <-.
  assert (Hst : all_bits (fun i => nth i (o ++ enc_flush N s) 0)).
  { intros i. destruct (Nat.lt_ge_cases i (length (o ++ enc_flush N s))) as [H|H].
    - assert (Hall : Forall is_bit (o ++ enc_flush N s)).
      { apply Forall_app. split; [exact Bo|]. exact (proj1 (flush_bits N s (proj2 Hs))). }
      rewrite Forall_forall in Hall. apply Hall. now apply nth_In.
    - rewrite nth_overflow by lia. now left. }
  apply (lossless_from M Inv N fuel HN Hf HM _ Hst bits Hb bits' (enc_init N m) s s' o o' 0%nat); try assumption.
  - apply (enc_init_ok N HN).
  - intros i. reflexivity.
  - intros i. cbn [Nat.add]. now apply same_code_nth.
Qed.
