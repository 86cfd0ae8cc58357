(** The arithmetic encoder: progress and code length. *)
From Coq Require Import Lra.
From Verif Require Import Spec.ACSpec Proofs.PyFacts Proofs.RealFacts Proofs.ACFacts Proofs.ACDecode Proofs.ACRound Proofs.ACModel.
Open Scope Z_scope.

Lemma cut_ok {S} (M : model S) m b m' l r : 2 <= r -> is_bit b -> (l <= 0)%R ->
  m_update M m b [] 1%R = Ok (m', l) ->
  exists cut, cm_enc (coder_of M) m b r = Ok (m', cut) /\ 1 <= part b cut r /\ 0 <= cut <= r.
Proof.
  intros Hr Hb Hl E. unfold coder_of. cbn [cm_enc]. rewrite E. cbn [bind].
  eexists. split; [reflexivity|].
  assert (Hr' : (2 <= IZR r)%R) by now apply IZR_le.
  pose proof (exp_pos l). assert (exp l <= 1)%R.
  { rewrite <- exp_0. destruct Hl as [Hl| ->]; [left; now apply exp_increasing|right; reflexivity]. }
  unfold part. destruct Hb as [-> | ->]; cbn [Z.eqb].
  - assert (py_int (IZR r * exp l) <= r) by (apply py_int_le; nra). lia.
  - assert (0 <= py_int (IZR r * (1 - exp l)) < r).
    { split; [apply py_int_lower; nra|apply py_int_lt; nra]. } lia.
Qed.

Lemma encode_progress {S} (M : model S) N fuel s b m' l :
  (2 <= N)%nat -> (N < fuel)%nat -> working N s -> en_follow s = 0%nat -> is_bit b ->
  m_update M (en_model s) b [] 1%R = Ok (m', l) -> (l <= 0)%R ->
  exists s' out, encode (coder_of M) N fuel s b = Ok (s', out) /\
    working N s' /\ en_follow s' = 0%nat /\ en_model s' = m' /\ Forall is_bit out /\ (length out <= N)%nat.
Proof.
  intros HN Hf Hs Hfol Hb E Hl.
  assert (Hok : enc_ok N s) by now apply working_ok.
  destruct (cut_ok M (en_model s) b m' l (en_high s - en_low s)) as (cut & Ec & Hp & Hc); try assumption.
  { destruct Hok as [[? ?] _]. lia. }
  destruct (encode_ok (coder_of M) N HN fuel s b m' cut Hok Hf Ec Hp Hc) as (s' & out & E' & Hs' & Hm & Hbits & Hlen & _).
  apply (working_ok N HN) in Hs'. exists s', out. intuition.
Qed.

Lemma init_working {S} (m : S) N : (2 <= N)%nat -> working N (enc_init N m) /\ en_follow (enc_init N m) = 0%nat.
Proof. intros HN. apply (working_ok N HN), (enc_init_ok N HN). Qed.

Lemma encode_empty {S} (C : coder_model S) N fuel s b m' :
  (2 <= N)%nat -> b <> 0 ->
  cm_enc C (en_model s) b (en_high s - en_low s) = Ok (m', en_high s - en_low s) ->
  encode C N fuel s b = Err OutOfFuel.
Proof.
  intros HN Hb E. unfold encode. rewrite E. cbn [bind].
  destruct (Z.eqb_spec b 0); [easy|].
  replace (en_low s + (en_high s - en_low s)) with (en_high s) by lia.
  rewrite (renorm_empty N HN). reflexivity.
Qed.

Section length.
  Context {S : Type} (M : model S) (Inv : S -> Prop) (N fuel : nat).
  Hypothesis HN : (2 <= N)%nat.
  Hypothesis Hfu : (N < fuel)%nat.
  Hypothesis HM : at_most_one M Inv.

  Lemma encode_range s b s' out : enc_ok N s -> Inv (en_model s) -> is_bit b ->
    encode (coder_of M) N fuel s b = Ok (s', out) ->
    exists m' cut, cm_enc (coder_of M) (en_model s) b (en_high s - en_low s) = Ok (m', cut) /\
      enc_ok N s' /\ Inv (en_model s') /\ 1 <= part b cut (en_high s - en_low s) <= en_high s - en_low s /\
      en_high s' - en_low s' = part b cut (en_high s - en_low s) * 2 ^ Z.of_nat (length out).
  Proof.
    intros Hs Hm Hb E.
    destruct (encode_inv _ _ _ _ _ _ _ E) as (m1 & c1 & Ec & Hm1 & _).
    pose proof Ec as Ec0. unfold coder_of in Ec0. cbn [cm_enc] in Ec0.
    destruct (m_update M (en_model s) b [] 1%R) as [[m2 l]|] eqn:Eu; [|discriminate].
    cbn [bind] in Ec0. injection Ec0 as <- _.
    destruct (HM _ _ _ _ Hm Hb Eu) as [Hl Hm2].
    destruct (cut_ok M (en_model s) b m2 l (en_high s - en_low s)) as (cut & Ec' & Hp & Hc); try assumption.
    { destruct Hs as [[? ?] _]. lia. }
    destruct (encode_ok (coder_of M) N HN fuel s b m2 cut Hs Hfu Ec' Hp Hc) as (s2 & out2 & E' & Hs' & Hm' & _ & _ & Hr).
    rewrite E in E'. injection E' as <- <-.
    exists m2, cut. split; [exact Ec'|]. split; [exact Hs'|]. split; [now rewrite Hm1|].
    split; [|exact Hr]. unfold part in *. destruct (b =? 0); lia.
  Qed.

  Lemma telescope : forall bits s s' out, Forall is_bit bits -> enc_ok N s -> Inv (en_model s) ->
    encode_all (coder_of M) N fuel s bits = Ok (s', out) ->
    let qs := quantised (coder_of M) N fuel s bits in
    enc_ok N s' /\ length qs = length bits /\ Forall (fun x => 0 < x <= 1)%R qs /\
    IZR (en_high s' - en_low s') = (IZR (en_high s - en_low s) * Rprod qs * 2 ^ length out)%R.
  Proof.
    induction bits as [|b bits IH]; intros s s' out Hb Hs Hm E; cbn zeta.
    - injection E as <- <-. cbn. split; [exact Hs|]. split; [reflexivity|]. split; [constructor|]. ring.
    - inversion_clear Hb as [|? ? Hb1 Hb2]. cbn [encode_all] in E.
      destruct (encode (coder_of M) N fuel s b) as [[s1 o1]|] eqn:E1; [|discriminate]. cbn [bind] in E.
      destruct (encode_all (coder_of M) N fuel s1 bits) as [[s2 o2]|] eqn:E2; [|discriminate].
      cbn in E. injection E as <- <-.
      destruct (encode_range s b s1 o1 Hs Hm Hb1 E1) as (m' & cut & Ec & Hs1 & Hm1 & Hp & Hr).
      destruct (IH s1 s2 o2 Hb2 Hs1 Hm1 E2) as (Hs2 & Hlen & Hpos & Heq).
      cbn [quantised]. rewrite Ec, E1.
      set (r := en_high s - en_low s) in *. unfold part in *.
      assert (H2r : 2 <= r) by (destruct Hs as [[? ?] _]; lia).
      assert (Hr0 : (0 < IZR r)%R) by (apply IZR_lt; lia).
      set (pt := if b =? 0 then cut else r - cut) in *.
      split; [exact Hs2|]. split; [cbn; now rewrite Hlen|]. split.
      + constructor; [|exact Hpos]. assert (1 <= IZR pt <= IZR r)%R by (split; apply IZR_le; lia).
        split; [apply Rdiv_lt_0_compat; lra|].
        apply Rmult_le_reg_r with (IZR r); [exact Hr0|]. unfold Rdiv. rewrite Rmult_assoc, Rinv_l by lra. lra.
      + rewrite Heq, Hr, mult_IZR, app_length, pow_add. cbn [Rprod fold_right]. fold (Rprod (quantised (coder_of M) N fuel s1 bits)).
        rewrite <- pow_IZR. field. lra.
  Qed.

  Lemma Rprod_ln qs : Forall (fun x => 0 < x <= 1)%R qs -> (0 < Rprod qs)%R /\ ln (Rprod qs) = Rsum (map ln qs).
  Proof.
    induction 1 as [|x l Hx Hl [IH1 IH2]]; cbn [map].
    - split; [cbn; lra|cbn; apply ln_1].
    - change (Rprod (x :: l)) with (x * Rprod l)%R.
      split; [apply Rmult_lt_0_compat; [lra|exact IH1]|]. rewrite ln_mult by (assumption || lra).
      rewrite IH2, Rsum_cons. reflexivity.
  Qed.

  Lemma log_loss_eq qs : log_loss qs = (- Rsum (map ln qs) / ln 2)%R.
  Proof.
    unfold log_loss. induction qs as [|x l IH]; cbn [map]; [cbn; unfold Rdiv; ring|].
    rewrite !Rsum_cons, IH. unfold Rdiv. ring.
  Qed.

  Lemma code_length m bits code : Inv m -> Forall is_bit bits ->
    compress (coder_of M) N fuel m bits = Ok code ->
    let qs := quantised (coder_of M) N fuel (enc_init N m) bits in
    length qs = length bits /\ Forall (fun x => 0 < x <= 1)%R qs /\
    (INR (length code) <= 2 + log_loss qs)%R.
  Proof.
    intros Hm Hb E. cbn zeta.
    destruct (compress_inv _ _ _ _ _ _ E) as (s' & out & E' & ->).
    destruct (telescope bits (enc_init N m) s' out Hb (enc_init_ok N HN m) Hm E') as (Hs' & Hlen & Hpos & Heq).
    split; [exact Hlen|]. split; [exact Hpos|].
    rewrite app_length, (flush_len (coder_of M) N HN fuel m bits s' out E'), plus_INR.
    destruct (Rprod_ln _ Hpos) as [Hp Hln]. rewrite log_loss_eq, <- Hln.
    cbn [enc_init en_low en_high] in Heq. rewrite Z.sub_0_r in Heq.
    pose proof (bounds N HN) as (Hq & _ & Ht).
    assert (Htop : (0 < IZR (top N))%R) by (apply IZR_lt; lia).
    assert (Hle : (IZR (en_high s' - en_low s') <= IZR (top N))%R) by (destruct Hs' as [[? ?] _]; apply IZR_le; lia).
    rewrite Heq in Hle.
    set (P := Rprod _) in *. set (k := length out) in *.
    assert (Hone : (P * 2 ^ k <= 1)%R) by nra.
    assert (Hk : (0 < 2 ^ k)%R) by (apply pow_lt; lra).
    assert (Hln2 : (ln P + INR k * ln 2 <= 0)%R).
    { rewrite <- ln_pow by lra. rewrite <- ln_mult by assumption. rewrite <- ln_1.
      destruct Hone as [Hone|Hone]; [left; apply ln_increasing; nra|right; now rewrite Hone]. }
    pose proof ln_lt_2. assert (Hl2 : (0 < ln 2)%R) by (rewrite <- ln_1; apply ln_increasing; lra).
    apply Rplus_le_reg_l with (-2)%R. change (INR 2) with 2%R.
    apply Rmult_le_reg_r with (ln 2); [exact Hl2|].
    replace ((-2 + (2 + - ln P / ln 2)) * ln 2)%R with (- ln P)%R by (field; lra).
    lra.
  Qed.
End length.

(** Quantisation moves every probability by at most one unit of the interval. *)
Lemma quantised_ideal {S} (M : model S) Inv okh okw N fuel :
  lawful M [0; 1] okh okw Inv -> okh [] -> okw 1%R -> (2 <= N)%nat -> (N < fuel)%nat ->
  forall bits s, Forall is_bit bits -> Inv (en_model s) -> working N s -> en_follow s = 0%nat ->
  Forall2 (fun x pr => Rabs (x - fst pr) <= / IZR (snd pr) /\ 2 <= IZR (snd pr))%R
    (quantised (coder_of M) N fuel s bits) (ideal M N fuel s bits).
Proof.
  intros Hlaw Hh Hw HN Hfu. induction bits as [|b bits IH]; intros s Hb Hm Hs Hf; [constructor|].
  inversion_clear Hb as [|? ? Hb1 Hb2]. cbn [quantised ideal].
  assert (Hok : enc_ok N s) by now apply working_ok.
  set (r := en_high s - en_low s) in *.
  assert (Hr : 2 <= r) by (destruct Hok as [[? ?] _]; lia).
  destruct (coder_same M Inv okh okw Hlaw Hh Hw (en_model s) b r Hm Hb1) as (m' & Hm' & Ee & _).
  pose proof (cut_bounds M Inv okh okw Hlaw Hh Hw (en_model s) r Hm Hr) as Hc.
  destruct (p0_range M Inv okh okw Hlaw Hh Hw (en_model s) Hm) as [Hp0 Hp1].
  set (p := p0 M (en_model s)) in *. set (c := py_int (IZR r * p)) in *.
  assert (Hpart : 1 <= part b (Z.max 1 c) r) by (unfold part; destruct Hb1 as [-> | ->]; cbn; lia).
  destruct (encode_ok (coder_of M) N HN fuel s b m' _ Hok Hfu Ee Hpart ltac:(lia)) as (s1 & o1 & E1 & Hs1 & Hm1 & _).
  rewrite Ee, E1. constructor.
  - cbn [fst snd]. assert (Hr' : (2 <= IZR r)%R) by now apply IZR_le. split; [|exact Hr'].
    assert (Hpb : pred_prob M (en_model s) b [] = if b =? 0 then p else (1 - p)%R).
    { destruct Hb1 as [-> | ->]; cbn; [reflexivity|exact Hp1]. }
    rewrite Hpb.
    assert (Hcp : (Rabs (IZR (Z.max 1 c) - IZR r * p) <= 1)%R).
    { pose proof (py_int_nonneg (IZR r * p) ltac:(nra)) as Hi. fold c in Hi.
      apply Rabs_le. destruct (Z.max_spec 1 c) as [[Hlt ->]|[Hge ->]]; [lra|].
      assert (c = 1 \/ c = 0) as [Hc1|Hc1] by lia; rewrite Hc1 in Hi; nra. }
    assert (Hi : (0 < / IZR r)%R) by (apply Rinv_0_lt_compat; lra).
    rewrite <- (Rmult_1_l (/ IZR r)).
    replace (IZR (if b =? 0 then Z.max 1 c else r - Z.max 1 c) / IZR r - (if b =? 0 then p else 1 - p))%R
      with ((if b =? 0 then IZR (Z.max 1 c) - IZR r * p else - (IZR (Z.max 1 c) - IZR r * p)) * / IZR r)%R.
    2: { destruct (b =? 0); [|rewrite minus_IZR]; field; lra. }
    rewrite Rabs_mult, (Rabs_right (/ IZR r)) by lra.
    apply Rmult_le_compat_r; [lra|]. destruct (b =? 0); [exact Hcp|]. now rewrite Rabs_Ropp.
  - apply (working_ok N HN) in Hs1 as [Hs1 Hf1]. apply IH; try assumption. now rewrite Hm1.
Qed.

(** A lawful model never returns a probability above one. *)
Lemma lawful_at_most_one {S} (M : model S) Inv okh okw :
  lawful M [0; 1] okh okw Inv -> okh [] -> okw 1%R -> at_most_one M Inv.
Proof.
  intros Hlaw Hh Hw s b s' l Hs Hb E.
  assert (HbA : In b [0; 1]) by (destruct Hb as [-> | ->]; cbn; auto).
  destruct (law_step _ _ _ _ _ Hlaw s b [] 1%R Hs HbA Hh Hw) as (s1 & l1 & Eu & El & Hs1).
  rewrite E in Eu. injection Eu as <- <-. split; [|exact Hs1].
  destruct (p0_range M Inv okh okw Hlaw Hh Hw s Hs) as [Hp0 Hp1].
  assert (exp l < 1)%R.
  { destruct Hb as [-> | ->].
    - unfold p0, pred_prob in Hp0. rewrite El in Hp0. lra.
    - unfold pred_prob in Hp1. rewrite El in Hp1. lra. }
  left. apply exp_lt_inv. rewrite exp_0. exact H.
Qed.
