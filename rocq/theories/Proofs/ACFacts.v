(** The arithmetic coder: the encoder's progress, the position of its output in the
    interval, and how the decoder follows the encoder. *)
From Verif Require Import Model.AC Proofs.PyFacts.
Open Scope Z_scope.

Definition bit (b : Z) : Prop := b = 0 \/ b = 1.

Section facts.
  Context {S : Type} (C : coder_model S) (N : nat).
  Hypothesis HN : (2 <= N)%nat.
  Local Notation top := (top N).
  Local Notation half := (half N).
  Local Notation q := (q1_4 N).

  Lemma bounds : 1 <= q /\ half = 2 * q /\ top = 4 * q.
  Proof.
    unfold q1_4, AC.half, AC.top.
    replace (Z.of_nat N) with (Z.of_nat (N - 2) + 1 + 1) by lia.
    rewrite !Z.pow_add_r by lia. change (2 ^ 1) with 2.
    rewrite Z.div_mul by lia. rewrite Z.div_mul by lia.
    pose proof (Z.pow_pos_nonneg 2 (Z.of_nat (N - 2))). lia.
  Qed.

  Lemma q_big : (3 <= N)%nat -> 2 <= q.
  Proof.
    intros H3. pose proof bounds as (Hq & Hh & Ht).
    assert (8 <= top).
    { unfold AC.top. change 8 with (2 ^ 3). apply Z.pow_le_mono_r; lia. }
    lia.
  Qed.

  Lemma enc_q3 : enc_q3_4 N = half.
  Proof. unfold enc_q3_4. pose proof bounds. lia. Qed.

  Lemma dec_q3 : dec_q3_4 N = 3 * q.
  Proof. unfold dec_q3_4. pose proof bounds. lia. Qed.

  (** The interval between two symbols: it straddles the midpoint. *)
  Definition straddles (low high : Z) : Prop := 0 <= low < half /\ half < high <= top.

  (** One rescaling step of the encoder. *)
  Lemma renorm_step fuel low high :
    renorm N (Datatypes.S fuel) low high 0 =
    if high <=? half then
      do (l, h, f, out) <- renorm N fuel (2 * low) (2 * high) 0; Ok (l, h, f, 0 :: out)
    else if low >=? half then
      do (l, h, f, out) <- renorm N fuel (2 * low - top) (2 * high - top) 0; Ok (l, h, f, 1 :: out)
    else Ok (low, high, 0%nat, []).
  Proof.
    cbn [renorm]. pose proof bounds as (Hq & Hh & Ht).
    replace (low * 2) with (2 * low) by lia. replace (high * 2) with (2 * high) by lia.
    replace ((low - half) * 2) with (2 * low - top) by lia.
    replace ((high - half) * 2) with (2 * high - top) by lia.
    destruct (Z.leb_spec high half) as [H|H]; [reflexivity|].
    rewrite !Z.geb_leb.
    destruct (Z.leb_spec half low) as [H'|H']; [reflexivity|].
    rewrite enc_q3. destruct (Z.leb_spec high half); [lia|].
    rewrite andb_false_r. reflexivity.
  Qed.

  (** Rescaling a non-empty interval ends, and every emitted bit doubles the interval. *)
  Lemma renorm_ok fuel : forall low high,
    0 <= low < high -> high <= top -> top < (high - low) * 2 ^ Z.of_nat fuel ->
    exists l h out, renorm N fuel low high 0 = Ok (l, h, 0%nat, out) /\ straddles l h /\
      Forall bit out /\ h - l = (high - low) * 2 ^ Z.of_nat (length out).
  Proof.
    pose proof bounds as (Hq & Hh & Ht).
    induction fuel as [|fuel IH]; intros low high Hl Hh' Hf.
    - change (2 ^ Z.of_nat 0) with 1 in Hf. lia.
    - rewrite renorm_step.
      rewrite Nat2Z.inj_succ, Z.pow_succ_r in Hf by lia.
      destruct (Z.leb_spec high half) as [H|H].
      + destruct (IH (2 * low) (2 * high)) as (l & h & out & E & Hs & Hb & Hr); try lia.
        rewrite E. cbn [bind]. exists l, h, (0 :: out). split; [reflexivity|]. split; [exact Hs|].
        split; [constructor; [now left|exact Hb]|].
        cbn [length]. rewrite Nat2Z.inj_succ, Z.pow_succ_r by lia. lia.
      + rewrite Z.geb_leb. destruct (Z.leb_spec half low) as [H'|H'].
        * destruct (IH (2 * low - top) (2 * high - top)) as (l & h & out & E & Hs & Hb & Hr); try lia.
          rewrite E. cbn [bind]. exists l, h, (1 :: out). split; [reflexivity|]. split; [exact Hs|].
          split; [constructor; [now right|exact Hb]|].
          cbn [length]. rewrite Nat2Z.inj_succ, Z.pow_succ_r by lia. lia.
        * exists low, high, []. split; [reflexivity|]. split; [split; lia|].
          split; [constructor|]. cbn. lia.
  Qed.

  Lemma renorm_bits fuel low high l h f out :
    renorm N fuel low high 0 = Ok (l, h, f, out) -> f = 0%nat /\ Forall bit out.
  Proof.
    revert low high l h f out. induction fuel as [|fuel IH]; intros low high l h f out E; [discriminate|].
    rewrite renorm_step in E.
    destruct (high <=? half).
    - destruct (renorm N fuel (2 * low) (2 * high) 0) as [[[[l1 h1] f1] o1]|e] eqn:E1; [|discriminate].
      cbn in E. injection E as -> -> -> <-. destruct (IH _ _ _ _ _ _ E1). split; [easy|].
      constructor; [now left|easy].
    - destruct (low >=? half).
      + destruct (renorm N fuel (2 * low - top) (2 * high - top) 0) as [[[[l1 h1] f1] o1]|e] eqn:E1; [|discriminate].
        cbn in E. injection E as -> -> -> <-. destruct (IH _ _ _ _ _ _ E1). split; [easy|].
        constructor; [now right|easy].
      + injection E as <- <- <- <-. split; [easy|constructor].
  Qed.

  Lemma fuel_enough fuel r : (N < fuel)%nat -> 1 <= r -> top < r * 2 ^ Z.of_nat fuel.
  Proof.
    intros Hf Hr. unfold AC.top.
    assert (2 ^ Z.of_nat N < 2 ^ Z.of_nat fuel) by (apply Z.pow_lt_mono_r; lia).
    nia.
  Qed.

  (** An empty interval is never rescaled out of. *)
  Lemma renorm_empty fuel : forall x f, renorm N fuel x x f = Err OutOfFuel.
  Proof.
    pose proof bounds as (Hq & Hh & Ht).
    induction fuel as [|fuel IH]; intros x f; [reflexivity|].
    cbn [renorm]. destruct (Z.leb_spec x half) as [H|H].
    - rewrite IH. reflexivity.
    - rewrite Z.geb_leb. destruct (Z.leb_spec half x) as [H'|H']; [|lia].
      rewrite IH. reflexivity.
  Qed.

  Definition enc_ok (s : @enc S) : Prop := straddles (en_low s) (en_high s) /\ en_follow s = 0%nat.

  Lemma enc_init_ok m : enc_ok (enc_init N m).
  Proof. pose proof bounds. split; [split; cbn; lia|reflexivity]. Qed.

  Definition part (symbol cut range : Z) : Z := if symbol =? 0 then cut else range - cut.

  (** One symbol. *)
  Lemma encode_ok fuel s symbol m' cut :
    enc_ok s -> (N < fuel)%nat ->
    cm_enc C (en_model s) symbol (en_high s - en_low s) = Ok (m', cut) ->
    1 <= part symbol cut (en_high s - en_low s) -> 0 <= cut <= en_high s - en_low s ->
    exists s' out, encode C N fuel s symbol = Ok (s', out) /\ enc_ok s' /\ en_model s' = m' /\
      Forall bit out /\ (length out <= N)%nat /\
      en_high s' - en_low s' = part symbol cut (en_high s - en_low s) * 2 ^ Z.of_nat (length out).
  Proof.
    intros [[Hl Hh'] Hf0] Hfu E Hp Hc. unfold encode. rewrite E. cbn [bind].
    pose proof bounds as (Hq & Hh & Ht).
    unfold part in *.
    set (low := if symbol =? 0 then en_low s else en_low s + cut).
    set (high := if symbol =? 0 then en_low s + cut else en_high s).
    replace (if symbol =? 0 then (en_low s, en_low s + cut) else (en_low s + cut, en_high s))
      with (low, high) by (subst low high; destruct (symbol =? 0); reflexivity).
    assert (Hr : high - low = if symbol =? 0 then cut else en_high s - en_low s - cut).
    { subst low high; destruct (symbol =? 0); lia. }
    assert (Hb : 0 <= low < high /\ high <= top) by (subst low high; destruct (symbol =? 0); lia).
    rewrite Hf0.
    destruct (renorm_ok fuel low high) as (l & h & out & E' & Hs & Hbits & Hlen); try easy.
    { apply fuel_enough; lia. }
    rewrite E'. cbn [bind]. exists (Enc m' l h 0), out. split; [reflexivity|].
    split; [split; [exact Hs|reflexivity]|]. split; [reflexivity|]. split; [exact Hbits|].
    rewrite <- Hr. split; [|exact Hlen].
    destruct (Nat.le_gt_cases (length out) N) as [|Hgt]; [assumption|].
    pose proof (fuel_enough (length out) 1 Hgt ltac:(lia)).
    destruct Hs. nia.
  Qed.

  (** The bits [s] to come, as an endless stream, read through a window of [N] bits. *)
  Fixpoint win_n (n : nat) (st : nat -> Z) (p : nat) : Z :=
    match n with
    | O => 0
    | Datatypes.S n' => st p * 2 ^ Z.of_nat n' + win_n n' st (Datatypes.S p)
    end.
  Definition win := win_n N.

  Lemma win_n_shift n st p :
    win_n n st (Datatypes.S p) = 2 * win_n n st p - st p * 2 ^ Z.of_nat n + st (p + n)%nat.
  Proof.
    revert p. induction n as [|n IH]; intros p.
    - cbn. rewrite Nat.add_0_r. lia.
    - cbn [win_n]. rewrite IH. rewrite Nat2Z.inj_succ, Z.pow_succ_r by lia.
      replace (Datatypes.S p + n)%nat with (p + Datatypes.S n)%nat by lia. lia.
  Qed.

  Lemma win_shift st p : win st (Datatypes.S p) = 2 * win st p - st p * top + st (p + N)%nat.
  Proof. apply win_n_shift. Qed.

  Lemma win_n_zero n st p : (forall i, (i < n)%nat -> st (p + i)%nat = 0) -> win_n n st p = 0.
  Proof.
    revert p. induction n as [|n IH]; intros p H; [reflexivity|].
    cbn [win_n]. rewrite IH.
    - specialize (H 0%nat ltac:(lia)). rewrite Nat.add_0_r in H. rewrite H. lia.
    - intros i Hi. replace (Datatypes.S p + i)%nat with (p + Datatypes.S i)%nat by lia. apply H. lia.
  Qed.

  (** Bits [out] at position [p] of the stream, and zeros after [tail]. *)
  Definition at_pos (st : nat -> Z) (p : nat) (l : list Z) : Prop :=
    forall i, (i < length l)%nat -> st (p + i)%nat = nth i l 0.

  Lemma at_pos_cons st p b l : at_pos st p (b :: l) -> st p = b /\ at_pos st (Datatypes.S p) l.
  Proof.
    intros H. split.
    - specialize (H 0%nat). cbn in H. rewrite Nat.add_0_r in H. apply H. lia.
    - intros i Hi. replace (Datatypes.S p + i)%nat with (p + Datatypes.S i)%nat by lia.
      rewrite H by (cbn; lia). reflexivity.
  Qed.

  Lemma at_pos_app st p l l' :
    at_pos st p (l ++ l') -> at_pos st p l /\ at_pos st (p + length l) l'.
  Proof.
    intros H. split; intros i Hi.
    - rewrite H by (rewrite app_length; lia). now rewrite app_nth1.
    - rewrite <- Nat.add_assoc, H by (rewrite app_length; lia). rewrite app_nth2_plus. reflexivity.
  Qed.

  Definition all_bits (st : nat -> Z) : Prop := forall i, bit (st i).

  (** If the code lies in the rescaled interval, it lies in the interval before. *)
  Lemma renorm_value st fuel : all_bits st -> forall low high l h f out p,
    renorm N fuel low high 0 = Ok (l, h, f, out) -> at_pos st p out ->
    l <= win st (p + length out) < h -> low <= win st p < high.
  Proof.
    intros Hst. pose proof bounds as (Hq & Hh & Ht).
    induction fuel as [|fuel IH]; intros low high l h f out p E Ha Hv; [discriminate|].
    rewrite renorm_step in E.
    assert (Hstep : forall b low' high' o1,
      renorm N fuel low' high' 0 = Ok (l, h, f, o1) -> out = b :: o1 ->
      low' = 2 * low - b * top -> high' = 2 * high - b * top -> low <= win st p < high).
    { intros b low' high' o1 E1 -> -> ->. apply at_pos_cons in Ha as [Hb Ha].
      cbn [length] in Hv. rewrite <- Nat.add_succ_comm in Hv.
      specialize (IH _ _ _ _ _ _ _ E1 Ha Hv). rewrite win_shift, Hb in IH.
      destruct (Hst (p + N)%nat); lia. }
    destruct (high <=? half).
    - destruct (renorm N fuel (2 * low) (2 * high) 0) as [[[[l1 h1] f1] o1]|e] eqn:E1; [|discriminate].
      cbn in E. injection E as -> -> -> <-. eapply (Hstep 0); eauto; lia.
    - destruct (low >=? half).
      + destruct (renorm N fuel (2 * low - top) (2 * high - top) 0) as [[[[l1 h1] f1] o1]|e] eqn:E1; [|discriminate].
        cbn in E. injection E as -> -> -> <-. eapply (Hstep 1); eauto; lia.
      + injection E as <- <- <- <-. cbn in Hv. now rewrite Nat.add_0_r in Hv.
  Qed.

  (** [tail_at st p s]: from [p] on the stream is what [flush] returns, then zeros. *)
  Definition tail_at (st : nat -> Z) (p : nat) (s : @enc S) : Prop :=
    forall i, st (p + i)%nat = nth i (enc_flush N s) 0.

  Lemma win_two n st p : (2 <= n)%nat -> (forall i, (2 <= i)%nat -> st (p + i)%nat = 0) ->
    win_n n st p = st p * 2 ^ Z.of_nat (n - 1) + st (Datatypes.S p) * 2 ^ Z.of_nat (n - 2).
  Proof.
    intros Hn Hz. destruct n as [|[|n]]; try lia.
    cbn [win_n]. replace (Datatypes.S (Datatypes.S n) - 1)%nat with (Datatypes.S n) by lia.
    replace (Datatypes.S (Datatypes.S n) - 2)%nat with n by lia.
    rewrite win_n_zero; [lia|]. intros i Hi.
    replace (Datatypes.S (Datatypes.S p) + i)%nat with (p + (2 + i))%nat by lia. apply Hz. lia.
  Qed.

  (** The code that [flush] completes. *)
  Lemma flush_value st p s : en_follow s = 0%nat -> tail_at st p s ->
    win st p = if en_low s <? q then q else half.
  Proof.
    intros Hf Ht. pose proof bounds as (Hq & Hh & Htop).
    assert (Hp1 : 2 ^ Z.of_nat (N - 1) = half).
    { unfold AC.half, AC.top. replace (Z.of_nat N) with (Z.of_nat (N - 1) + 1) by lia.
      rewrite Z.pow_add_r by lia. change (2 ^ 1) with 2. rewrite Z.div_mul by lia. reflexivity. }
    assert (Hp2 : 2 ^ Z.of_nat (N - 2) = q).
    { assert (2 * 2 ^ Z.of_nat (N - 2) = 2 ^ Z.of_nat (N - 1)); [|lia].
      rewrite <- Z.pow_succ_r by lia. f_equal. lia. }
    assert (Hl : length (enc_flush N s) = 2%nat).
    { unfold enc_flush. rewrite Hf. destruct (en_low s <? q); reflexivity. }
    unfold win. rewrite win_two by (try lia; intros i Hi; rewrite Ht; apply nth_overflow; lia).
    pose proof (Ht 0%nat) as H0. pose proof (Ht 1%nat) as H1.
    rewrite Nat.add_0_r in H0. rewrite Nat.add_1_r in H1. rewrite H0, H1, Hp1, Hp2.
    unfold enc_flush. rewrite Hf. destruct (en_low s <? q); cbn [nth repeat Nat.add]; lia.
  Qed.

  Lemma flush_in st p s : enc_ok s -> tail_at st p s ->
    en_low s <= win st p < en_high s.
  Proof.
    intros [[Hl Hh'] Hf] Ht. rewrite (flush_value st p s Hf Ht).
    pose proof bounds. destruct (Z.ltb_spec (en_low s) q); lia.
  Qed.

  Lemma encode_inv fuel s symbol s' out : encode C N fuel s symbol = Ok (s', out) ->
    exists m' cut, cm_enc C (en_model s) symbol (en_high s - en_low s) = Ok (m', cut) /\
      en_model s' = m' /\
      renorm N fuel (if symbol =? 0 then en_low s else en_low s + cut)
        (if symbol =? 0 then en_low s + cut else en_high s) (en_follow s)
      = Ok (en_low s', en_high s', en_follow s', out).
  Proof.
    unfold encode. destruct (cm_enc C (en_model s) symbol (en_high s - en_low s)) as [[m' cut]|e];
      [|discriminate]. cbn [bind]. intros E. exists m', cut. split; [reflexivity|].
    destruct (symbol =? 0);
      match goal with H : bind ?r _ = _ |- _ => destruct r as [[[[l h] f] o]|e]; [|discriminate] end;
      cbn in E; injection E as <- <-; cbn; split; reflexivity.
  Qed.

  (** Invariant kept by an encoder that returned: it need not be assumed. *)
  Lemma renorm_straddles fuel : forall low high l h f out,
    renorm N fuel low high 0 = Ok (l, h, f, out) -> 0 <= low -> high <= top -> straddles l h.
  Proof.
    pose proof bounds as (Hq & Hh & Ht).
    induction fuel as [|fuel IH]; intros low high l h f out E Hl Hr; [discriminate|].
    rewrite renorm_step in E.
    destruct (Z.leb_spec high half) as [H|H].
    - destruct (renorm N fuel (2 * low) (2 * high) 0) as [[[[l1 h1] f1] o1]|e] eqn:E1; [|discriminate].
      cbn in E. injection E as -> -> -> <-. eapply IH; eauto; lia.
    - rewrite Z.geb_leb in E. destruct (Z.leb_spec half low) as [H'|H'].
      + destruct (renorm N fuel (2 * low - top) (2 * high - top) 0) as [[[[l1 h1] f1] o1]|e] eqn:E1; [|discriminate].
        cbn in E. injection E as -> -> -> <-. eapply IH; eauto; lia.
      + injection E as <- <- <- <-. split; lia.
  Qed.
End facts.
