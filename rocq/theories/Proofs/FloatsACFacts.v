(** The arithmetic coder when floats round. *)
From Coq Require Import Lra.
From Verif Require Import Model.CtwPTW Spec.FloatsACSpec.
From Verif Require Import Proofs.RealFacts Proofs.KTRedundancy Proofs.FloatsFacts Proofs.FloatsChop.
From Verif Require Import Proofs.PyFacts Proofs.ACFacts Proofs.ACDecode Proofs.ACRound Proofs.ACModel Proofs.ACLast Proofs.ACKT Proofs.ACCoin Proofs.ACPrefix.
Open Scope R_scope.

(** ** Rounding to nearest *)
Lemma floor_unique y z : IZR z <= y < IZR z + 1 -> (up y - 1)%Z = z.
Proof.
  intros [H3 H4]. destruct (floor_bounds y) as [H1 H2]. rewrite <- (plus_IZR _ 1) in H2. rewrite <- (plus_IZR _ 1) in H4.
  assert (A : (z < up y - 1 + 1)%Z) by (apply lt_IZR; lra). assert (B : (up y - 1 < z + 1)%Z) by (apply lt_IZR; lra). lia.
Qed.

Lemma to_even_near y : Rabs (IZR (to_even y) - y) <= / 2.
Proof.
  unfold to_even. cbv zeta. destruct (floor_bounds y) as [H1 H2]. set (f := (up y - 1)%Z) in *.
  apply Rabs_le. destruct (Rlt_dec _ _); [lra|]. destruct (Rlt_dec _ _); [rewrite plus_IZR; lra|].
  destruct (Z.even f); [lra|rewrite plus_IZR; lra].
Qed.

Lemma nearest_rel p x : Rabs (nearest p x - x) <= powerRZ 2 (- p - 1) * Rabs x.
Proof.
  unfold nearest. destruct (Req_EM_T x 0) as [-> | Hx]; [rewrite Rminus_0_r, Rabs_R0; lra|]. cbv zeta.
  set (s := powerRZ 2 (expo x - p)). pose proof (pow2_pos (expo x - p)) as Hs. fold s in Hs.
  pose proof (to_even_near (x / s)) as H. set (z := IZR (to_even (x / s))) in *.
  replace (s * z - x) with (s * (z - x / s)) by (field; lra). rewrite Rabs_mult, (Rabs_right s) by lra.
  apply Rle_trans with (s * / 2); [apply Rmult_le_compat_l; lra|].
  unfold s. replace (- p - 1)%Z with (- p + -1)%Z by lia. rewrite !pow2_add, pow2_m1.
  replace (expo x - p)%Z with (expo x + - p)%Z by lia. rewrite pow2_add.
  pose proof (expo_le x Hx). pose proof (pow2_pos (- p)).
  replace (powerRZ 2 (expo x) * powerRZ 2 (- p) * / 2) with (powerRZ 2 (- p) * / 2 * powerRZ 2 (expo x)) by ring.
  apply Rmult_le_compat_l; lra.
Qed.

Lemma rounded_exp_accurate p big max : (0 <= p)%Z -> accurate (rounded_exp p) (powerRZ 2 (- p - 1)) big max.
Proof.
  intros Hp. pose proof (pow2_pos (- p - 1)) as Hu. set (u := powerRZ 2 (- p - 1)) in *.
  split; cbn [rounded_exp f_add f_sub f_div f_exp f_log].
  - intros x y _. rewrite Rminus_eq_0, Rabs_R0. pose proof (Rabs_pos (x + y)). nra.
  - intros x y _. rewrite Rminus_eq_0, Rabs_R0. pose proof (Rabs_pos (x - y)). nra.
  - intros j k [Hj _] [Hk _]. assert (1 <= INR j) by (apply (le_INR 1); lia). assert (1 <= INR k) by (apply (le_INR 1); lia).
    replace (INR j / 2 / (INR k / 2)) with (INR j / INR k) by (field; lra). rewrite Rminus_eq_0, Rabs_R0.
    assert (0 < INR j / INR k) by (apply Rdiv_lt_0_compat; lra). nra.
  - intros j k _. rewrite plus_INR. lra.
  - intros x Hx. pose proof (exp_pos x) as Px. assert (exp x <= 1) by (rewrite <- exp_0; apply exp_le_mono; exact Hx).
    pose proof (nearest_rel p (exp x)) as Hr. fold u in Hr. rewrite (Rabs_right (exp x)) in Hr by lra.
    assert (Hu1 : u <= 1).
    { unfold u. rewrite pow2_exp, <- exp_0. apply exp_le_mono. pose proof ln2_bounds.
      assert (IZR (- p - 1) <= 0) by (apply IZR_le; lia). nra. }
    split; [|nra]. destruct (Rle_lt_dec 0 (nearest p (exp x))) as [|Hn]; [assumption|exfalso].
    rewrite Rabs_left in Hr by lra. assert (u * exp x <= 1 * exp x) by (apply Rmult_le_compat_r; lra). lra.
  - intros x Hx. rewrite Rminus_eq_0, Rabs_R0. pose proof (Rabs_pos (ln x)). nra.
Qed.

Lemma expo_unique x e : powerRZ 2 e <= x < powerRZ 2 (e + 1) -> expo x = e.
Proof.
  intros [H1 H2]. pose proof (pow2_pos e). assert (Hx : 0 < x) by lra. pose proof ln2_bounds as [L _]. unfold expo. rewrite Rabs_right by lra.
  apply floor_unique. rewrite pow2_exp in H1, H2.
  apply ln_le in H1; [|apply exp_pos]. rewrite ln_exp in H1.
  apply ln_increasing in H2; [|exact Hx]. rewrite ln_exp, plus_IZR in H2.
  assert (E : ln x / ln 2 * ln 2 = ln x) by (field; lra). split.
  - apply Rmult_le_reg_r with (ln 2); lra.
  - apply Rmult_lt_reg_r with (ln 2); lra.
Qed.

(** The nearest integer to a / n *)
Definition rne (a n : Z) : Z :=
  let f := (a / n)%Z in let r := (a mod n)%Z in
  if (2 * r <? n)%Z then f else if (n <? 2 * r)%Z then (f + 1)%Z else if Z.even f then f else (f + 1)%Z.

Lemma to_even_quot a n : (0 < n)%Z -> to_even (IZR a / IZR n) = rne a n.
Proof.
  intros Hn. assert (Hn' : 0 < IZR n) by now apply IZR_lt.
  pose proof (Z.div_mod a n ltac:(lia)) as Hd. pose proof (Z.mod_pos_bound a n Hn) as Hm.
  unfold rne. cbv zeta. set (f := (a / n)%Z) in *. set (r := (a mod n)%Z) in *.
  assert (E : IZR a / IZR n = IZR f + IZR r / IZR n) by (rewrite Hd, plus_IZR, mult_IZR; field; lra).
  assert (B : 0 <= IZR r / IZR n < 1).
  { destruct Hm as [Hm1 Hm2]. apply IZR_le in Hm1. apply IZR_lt in Hm2. split.
    - apply Rmult_le_pos; [exact Hm1|]. left. now apply Rinv_0_lt_compat.
    - apply Rmult_lt_reg_r with (IZR n); [exact Hn'|]. unfold Rdiv. rewrite Rmult_assoc, Rinv_l by lra. lra. }
  assert (Ef : (up (IZR a / IZR n) - 1)%Z = f) by (apply floor_unique; lra).
  assert (Lt : forall x y, x < y -> x * IZR n < y * IZR n) by (intros; apply Rmult_lt_compat_r; lra).
  assert (Er : IZR r / IZR n * IZR n = IZR r) by (field; lra).
  assert (E2 : IZR (2 * r) = 2 * IZR r) by (rewrite mult_IZR; lra).
  unfold to_even. cbv zeta. rewrite Ef, E. replace (IZR f + IZR r / IZR n - IZR f) with (IZR r / IZR n) by lra.
  destruct (Rlt_dec (IZR r / IZR n) (/ 2)) as [H|H]; destruct (Z.ltb_spec (2 * r) n) as [H'|H']; try reflexivity.
  - apply Lt in H. apply IZR_le in H'. lra.
  - exfalso. apply H. apply IZR_lt in H'. apply Rmult_lt_reg_r with (IZR n); lra.
  - destruct (Rlt_dec (/ 2) (IZR r / IZR n)) as [G|G]; destruct (Z.ltb_spec n (2 * r)) as [G'|G']; try reflexivity.
    + apply Lt in G. apply IZR_le in G'. lra.
    + exfalso. apply G. apply IZR_lt in G'. apply Rmult_lt_reg_r with (IZR n); lra.
Qed.

(** The exponent of c / n *)
Definition qexp (c n : Z) : Z :=
  let k := (Z.log2 n - Z.log2 c)%Z in if (n <=? c * 2 ^ k)%Z then k else (k + 1)%Z.

Lemma qexp_spec c n : (0 < c <= n)%Z -> (0 <= qexp c n /\ n <= c * 2 ^ qexp c n < 2 * n)%Z.
Proof.
  intros H. unfold qexp. cbv zeta.
  pose proof (Z.log2_spec n ltac:(lia)) as Hn. pose proof (Z.log2_spec c ltac:(lia)) as Hc.
  assert (Hl : (Z.log2 c <= Z.log2 n)%Z) by (apply Z.log2_le_mono; lia).
  pose proof (Z.log2_nonneg c). set (a := Z.log2 n) in *. set (b := Z.log2 c) in *. set (k := (a - b)%Z) in *.
  replace a with (b + k)%Z in Hn by lia. rewrite <- Z.add_succ_r in Hn. rewrite !Z.pow_add_r in Hn by lia.
  rewrite Z.pow_succ_r in Hc, Hn by lia.
  assert (0 < 2 ^ k)%Z by (apply Z.pow_pos_nonneg; lia). assert (0 < 2 ^ b)%Z by (apply Z.pow_pos_nonneg; lia).
  destruct (Z.leb_spec n (c * 2 ^ k)) as [G|G]; [split; [lia|]; nia|].
  split; [lia|]. rewrite Z.pow_add_r by lia. change (2 ^ 1)%Z with 2%Z. nia.
Qed.

(** c / n rounded, as a number of units of 2^-(p + qexp c n) *)
Definition qnear (p c n : Z) : Z := rne (c * 2 ^ (p + qexp c n)) n.

Lemma nearest_quot p c n : (0 <= p)%Z -> (0 < c <= n)%Z ->
  nearest p (IZR c / IZR n) = IZR (qnear p c n) / IZR (2 ^ (p + qexp c n)).
Proof.
  intros Hp H. destruct (qexp_spec c n H) as (Hk & K1 & K2). unfold qnear. set (k := qexp c n) in *.
  assert (Hc' : 0 < IZR c) by (apply IZR_lt; lia). assert (Hn' : 0 < IZR n) by (apply IZR_lt; lia).
  assert (Hq : 0 < IZR c / IZR n) by (apply Rdiv_lt_0_compat; lra).
  assert (Pk : 0 < IZR (2 ^ k)) by (apply IZR_lt, Z.pow_pos_nonneg; lia).
  assert (P1 : powerRZ 2 (- k) * IZR (2 ^ k) = 1).
  { rewrite <- pow2_Z, <- pow2_add by lia. replace (- k + k)%Z with 0%Z by lia. reflexivity. }
  assert (He : expo (IZR c / IZR n) = (- k)%Z).
  { apply expo_unique. apply IZR_le in K1. apply IZR_lt in K2. rewrite mult_IZR in K1, K2. rewrite mult_IZR in K2.
    assert (E : IZR c / IZR n * (IZR n * IZR (2 ^ k)) = IZR c * IZR (2 ^ k)) by (field; lra).
    assert (0 < IZR n * IZR (2 ^ k)) by nra.
    split.
    - apply Rmult_le_reg_r with (IZR n * IZR (2 ^ k)); [assumption|]. rewrite E. replace (powerRZ 2 (- k) * (IZR n * IZR (2 ^ k))) with (IZR n * (powerRZ 2 (- k) * IZR (2 ^ k))) by ring. rewrite P1. lra.
    - apply Rmult_lt_reg_r with (IZR n * IZR (2 ^ k)); [assumption|]. rewrite E, pow2_add. replace (powerRZ 2 (- k) * powerRZ 2 1 * (IZR n * IZR (2 ^ k))) with (IZR n * (powerRZ 2 (- k) * IZR (2 ^ k)) * powerRZ 2 1) by ring.
      rewrite P1, powerRZ_1. lra. }
  unfold nearest. destruct (Req_EM_T _ 0) as [|_]; [lra|]. cbv zeta. rewrite He.
  assert (Ep : powerRZ 2 (- k - p) * IZR (2 ^ (p + k)) = 1).
  { rewrite <- pow2_Z, <- pow2_add by lia. replace (- k - p + (p + k))%Z with 0%Z by lia. reflexivity. }
  set (s := powerRZ 2 (- k - p)) in *. set (w := IZR (2 ^ (p + k))) in *.
  assert (Ps : 0 < s) by apply pow2_pos. assert (Pw : 0 < w) by (apply IZR_lt, Z.pow_pos_nonneg; lia).
  assert (Es : s = / w) by (apply Rmult_eq_reg_r with w; [|lra]; rewrite Rinv_l by lra; exact Ep).
  rewrite Es. replace (IZR c / IZR n / / w) with (IZR (c * 2 ^ (p + k)) / IZR n) by (rewrite mult_IZR; fold w; field; lra).
  rewrite to_even_quot by lia. field. lra.
Qed.

Lemma qnear_le p c n : (0 <= p)%Z -> (0 < c <= n)%Z -> (0 <= qnear p c n <= 2 ^ (p + qexp c n))%Z.
Proof.
  intros Hp H. destruct (qexp_spec c n H) as (Hk & _ & _). unfold qnear, rne. cbv zeta. set (w := (2 ^ (p + qexp c n))%Z).
  assert (0 < w)%Z by (apply Z.pow_pos_nonneg; lia).
  pose proof (Z.div_mod (c * w) n ltac:(lia)) as Hd. pose proof (Z.mod_pos_bound (c * w) n ltac:(lia)) as Hm.
  set (f := (c * w / n)%Z) in *. set (r := ((c * w) mod n)%Z) in *.
  assert (0 <= f)%Z by (apply Z.div_pos; nia). assert (f <= w)%Z by nia.
  assert (f + 1 <= w \/ r = 0)%Z by nia.
  destruct (Z.ltb_spec (2 * r) n); [lia|]. destruct (Z.ltb_spec n (2 * r)); [lia|]. destruct (Z.even f); lia.
Qed.

(** ** KT with a rounded exponential, in integers *)
Open Scope Z_scope.

Definition ktn_dec (p : Z) (s : kti) (r : Z) : Z :=
  let n := fst s + snd s in Z.quot (r * qnear p (fst s) n) (2 ^ (p + qexp (fst s) n)).
Definition ktn_one (p : Z) (s : kti) (r : Z) : Z :=
  let n := fst s + snd s in let w := 2 ^ (p + qexp (snd s) n) in Z.quot (r * (w - qnear p (snd s) n)) w.
Definition KTN (p : Z) : coder_model kti := CoderModel
  (fun s b r => Ok (kti_upd s b, Z.max 1 (if b =? 0 then ktn_dec p s r else ktn_one p s r)))
  (fun s r => Ok (ktn_dec p s r))
  (fun s b => Ok (kti_upd s b)).

Definition QKT_rounded (p : Z) : coder_model qkt := fp_coder_of (rounded_exp p) Rmult (q_model QKT_class).

Section ktn.
  Variable p : Z.
  Hypothesis Hp : 0 <= p.

  Lemma ktn_dec_ok s t r l : kt_rel s t -> exp l = (IZR (fst t) / IZR (fst t + snd t))%R ->
    py_int (IZR r * nearest p (exp l)) = ktn_dec p t r.
  Proof.
    intros (H0 & H1 & _) ->. unfold ktn_dec. cbv zeta.
    assert (A : 0 < fst t <= fst t + snd t) by lia.
    destruct (qexp_spec _ _ A) as (Hk & _ & _). pose proof (qnear_le p _ _ Hp A).
    rewrite nearest_quot by assumption. apply py_int_quot; [apply Z.pow_pos_nonneg; lia|lia].
  Qed.

  Lemma KTN_enc s t b r : kt_rel s t -> is_bit b -> rel1 kt_rel (cm_enc (QKT_rounded p) s b r) (cm_enc (KTN p) t b r).
  Proof.
    intros Hr Hb. destruct (kt_rel_update s t b Hr Hb) as (s' & l & Eu & Hr' & Hl).
    unfold QKT_rounded, fp_coder_of. cbn [cm_enc KTN q_model QKT_class m_update]. rewrite Eu. cbn [bind rel1].
    split; [exact Hr'|]. f_equal. cbn [rounded_exp f_exp f_sub].
    destruct Hb as [-> | ->]; cbn [Z.eqb] in *; [eapply ktn_dec_ok; eassumption|].
    rewrite Hl. destruct Hr as (H0 & H1 & _). unfold ktn_one. cbv zeta.
    assert (A : 0 < snd t <= fst t + snd t) by lia.
    destruct (qexp_spec _ _ A) as (Hk & _ & _). pose proof (qnear_le p _ _ Hp A).
    rewrite nearest_quot by assumption. set (w := 2 ^ (p + qexp (snd t) (fst t + snd t))) in *.
    assert (0 < w) by (apply Z.pow_pos_nonneg; lia). assert (0 < IZR w)%R by now apply IZR_lt.
    rewrite <- py_int_quot by lia. do 2 f_equal. rewrite minus_IZR. field. lra.
  Qed.

  Lemma KTN_dec s t r : kt_rel s t -> cm_dec (QKT_rounded p) s r = cm_dec (KTN p) t r.
  Proof.
    intros Hr. destruct (kt_rel_logp s t 0 Hr ltac:(now left)) as (l & El & Hl).
    unfold QKT_rounded, fp_coder_of. cbn [cm_dec KTN q_model QKT_class m_logp]. rewrite El. cbn [bind rounded_exp f_exp].
    f_equal. eapply ktn_dec_ok; eassumption.
  Qed.

  Lemma KTN_upd s t b : kt_rel s t -> is_bit b ->
    match cm_upd (QKT_rounded p) s b, cm_upd (KTN p) t b with
    | Ok s', Ok t' => kt_rel s' t' | Err e, Err e' => e = e' | _, _ => False end.
  Proof.
    intros Hr Hb. destruct (kt_rel_update s t b Hr Hb) as (s' & l & Eu & Hr' & _).
    unfold QKT_rounded, fp_coder_of. cbn [cm_upd KTN q_model QKT_class m_update]. rewrite Eu. exact Hr'.
  Qed.

  Lemma ktn_compress N fuel bits : Forall is_bit bits ->
    compress (QKT_rounded p) N fuel (qkt_init [0; 1]) bits = compress (KTN p) N fuel (1, 1) bits.
  Proof.
    intros Hb. apply (compress_sim _ _ kt_rel); [|exact Hb|apply kt_rel_init].
    intros; now apply KTN_enc.
  Qed.

  Lemma ktn_decompress N rounds fuel bits n :
    decompress (QKT_rounded p) N rounds fuel (qkt_init [0; 1]) bits n = decompress (KTN p) N rounds fuel (1, 1) bits n.
  Proof.
    apply (decompress_sim _ _ kt_rel); [| |apply kt_rel_init].
    - intros; now apply KTN_dec.
    - intros; now apply KTN_upd.
  Qed.

  (** [splits_inside] and [splits_agree] decided in integers *)
  Fixpoint ktn_splits (agree : bool) (N fuel : nat) (t : @enc kti) (bits : list Z) : bool :=
    match bits with
    | [] => true
    | b :: bits' =>
        ((b =? 0) || (b =? 1)) &&
        match cm_enc (KTN p) (en_model t) b (en_high t - en_low t) with
        | Ok (_, cut) =>
            (0 <=? cut) && (cut <=? en_high t - en_low t) &&
            (negb agree || (cut =? ktn_dec p (en_model t) (en_high t - en_low t)))
        | Err _ => false
        end &&
        match encode (KTN p) N fuel t b with Ok (t', _) => ktn_splits agree N fuel t' bits' | Err _ => true end
    end.

  Lemma ktn_splits_ok N fuel : forall bits s t, erel kt_rel s t ->
    (ktn_splits false N fuel t bits = true -> splits_inside (QKT_rounded p) N fuel s bits) /\
    (ktn_splits true N fuel t bits = true -> splits_agree (QKT_rounded p) N fuel s bits).
  Proof.
    induction bits as [|b bits IH]; intros s t Hr; [split; intros _; exact I|].
    pose proof Hr as (Hk & El & Eh & Ef). cbn [ktn_splits splits_inside splits_agree].
    assert (Hboth : forall ag, ((b =? 0) || (b =? 1)) &&
        match cm_enc (KTN p) (en_model t) b (en_high t - en_low t) with
        | Ok (_, cut) =>
            (0 <=? cut) && (cut <=? en_high t - en_low t) &&
            (negb ag || (cut =? ktn_dec p (en_model t) (en_high t - en_low t)))
        | Err _ => false
        end &&
        match encode (KTN p) N fuel t b with Ok (t', _) => ktn_splits ag N fuel t' bits | Err _ => true end = true ->
      is_bit b /\ exists m' cut, cm_enc (QKT_rounded p) (en_model s) b (en_high s - en_low s) = Ok (m', cut) /\
        0 <= cut <= en_high s - en_low s /\ cm_upd (QKT_rounded p) (en_model s) b = Ok m' /\
        (ag = true -> cm_dec (QKT_rounded p) (en_model s) (en_high s - en_low s) = Ok cut) /\
        forall s' out, encode (QKT_rounded p) N fuel s b = Ok (s', out) ->
          exists t', erel kt_rel s' t' /\ ktn_splits ag N fuel t' bits = true).
    { intros ag H. apply andb_prop in H as [H H3]. apply andb_prop in H as [H1 H2].
      assert (Hb : is_bit b).
      { apply orb_prop in H1 as [H1|H1]; apply Z.eqb_eq in H1; [now left|now right]. }
      split; [exact Hb|]. rewrite El, Eh.
      pose proof (KTN_enc _ _ b (en_high t - en_low t) Hk Hb) as Hc.
      destruct (kt_rel_update _ _ b Hk Hb) as (s1 & l & Eu & Hr1 & _).
      assert (Eupd : cm_upd (QKT_rounded p) (en_model s) b = Ok s1).
      { unfold QKT_rounded, fp_coder_of. cbn [cm_upd q_model QKT_class m_update]. rewrite Eu. reflexivity. }
      destruct (cm_enc (QKT_rounded p) (en_model s) b (en_high t - en_low t)) as [[m' cut]|e] eqn:Ec.
      2: { destruct (cm_enc (KTN p) (en_model t) b (en_high t - en_low t)) as [[? ?]|]; [destruct Hc|discriminate]. }
      destruct (cm_enc (KTN p) (en_model t) b (en_high t - en_low t)) as [[? cut']|]; [|destruct Hc].
      destruct Hc as [_ <-]. apply andb_prop in H2 as [H2 H5]. apply andb_prop in H2 as [H2 H4].
      apply Z.leb_le in H2. apply Z.leb_le in H4.
      exists m', cut. split; [reflexivity|]. split; [lia|].
      assert (m' = s1) as ->.
      { unfold QKT_rounded, fp_coder_of in Ec. cbn [cm_enc q_model QKT_class m_update] in Ec. rewrite Eu in Ec. cbn [bind] in Ec. now injection Ec. }
      split; [exact Eupd|]. split.
      - intros ->. cbn [negb orb] in H5. apply Z.eqb_eq in H5. rewrite (KTN_dec _ _ _ Hk). cbn [KTN cm_dec]. now rewrite <- H5.
      - intros s' out E.
        pose proof (encode_sim _ _ kt_rel N ltac:(intros; now apply KTN_enc) fuel s t b Hr Hb) as Hs.
        rewrite E in Hs. destruct (encode (KTN p) N fuel t b) as [[t' o']|]; [|destruct Hs].
        destruct Hs as [Hs _]. exists t'. split; [exact Hs|exact H3]. }
    split; intros H; destruct (Hboth _ H) as (Hb & m' & cut & H1 & H2 & H3 & H4 & H5).
    - split; [exact Hb|]. exists m', cut. split; [exact H1|]. split; [exact H2|].
      intros s' out E. destruct (H5 s' out E) as (t' & Ht & Hs). now apply (IH s' t' Ht).
    - split; [exact Hb|]. exists m', cut. split; [exact H1|]. split; [exact (H4 eq_refl)|]. split; [exact H3|]. split; [exact H2|].
      intros s' out E. destruct (H5 s' out E) as (t' & Ht & Hs). now apply (IH s' t' Ht).
  Qed.
End ktn.

Lemma alternating_bits n : Forall is_bit (alternating n).
Proof.
  unfold alternating. induction n as [|n IH]; cbn; [constructor|].
  constructor; [now left|]. constructor; [now right|]. exact IH.
Qed.

Lemma rounding_refutes : exists code code' r,
  accurate (rounded_exp 52) (powerRZ 2 (- 53)) 2000 (Z.to_nat (2 ^ 53)) /\
  compress (fp_coder_of (rounded_exp 52) Rmult (q_model QKT_class)) 32 40 (qkt_init [0; 1]) (alternating 17) = Ok code /\
  decompress (fp_coder_of (rounded_exp 52) Rmult (q_model QKT_class)) 32 40 40 (qkt_init [0; 1]) code 34 = Ok r /\
  r = alternating 16 ++ [0; 0] /\
  compress (coder_of (q_model QKT_class)) 32 40 (qkt_init [0; 1]) (alternating 17) = Ok code' /\
  decompress (coder_of (q_model QKT_class)) 32 40 40 (qkt_init [0; 1]) code' 34 = Ok (alternating 17).
Proof.
  change (fp_coder_of (rounded_exp 52) Rmult (q_model QKT_class)) with (QKT_rounded 52).
  change (coder_of (q_model QKT_class)) with QKT_coder.
  rewrite ktn_compress, kt_compress by (lia || apply alternating_bits).
  do 3 eexists. split; [apply (rounded_exp_accurate 52); lia|].
  split; [vm_compute; reflexivity|]. rewrite ktn_decompress by lia. split; [vm_compute; reflexivity|].
  split; [vm_compute; reflexivity|]. split; [vm_compute; reflexivity|]. rewrite kt_decompress. vm_compute. reflexivity.
Qed.

(** ** Any coder that splits alike *)
Lemma any_safe {S} (C : coder_model S) N fuel m bits code : (3 <= N)%nat ->
  splits_agree C N fuel (enc_init N m) bits -> compress C N fuel m bits = Ok code ->
  forall rounds fuel' r, decompress C N rounds fuel' m code (Z.of_nat (length bits)) = Ok r -> r = bits.
Proof.
  intros HN Ha Ec rounds fuel' r. unfold compress in Ec.
  destruct (encode_all C N fuel (enc_init N m) bits) as [[s' out]|] eqn:E; [|discriminate]. injection Ec as <-.
  apply (decompress_safe C N ltac:(lia) fuel m bits s' out); auto using agree_path.
Qed.

Lemma any_last {S} (C : coder_model S) N fuel m bits code : (3 <= N)%nat -> bits <> [] ->
  splits_agree C N fuel (enc_init N m) bits -> compress C N fuel m bits = Ok code ->
  (before_last C N fuel (enc_init N m) bits + 2 < length code)%nat ->
  forall rounds fuel', (N <= rounds)%nat -> (length bits < fuel')%nat ->
    decompress C N rounds fuel' m code (Z.of_nat (length bits)) = Ok bits.
Proof.
  intros HN Hne Ha Ec Hk rounds fuel' Hr Hf. unfold compress in Ec.
  destruct (encode_all C N fuel (enc_init N m) bits) as [[s' out]|] eqn:E; [|discriminate]. injection Ec as <-.
  apply agree_path in Ha.
  apply (decompress_last C N ltac:(lia) fuel m bits s' out); auto.
  rewrite app_length, (flush_len C N ltac:(lia) fuel m bits s' out E) in Hk. lia.
Qed.

Lemma any_part {S} (C : coder_model S) N fuel m pre post code : (3 <= N)%nat ->
  splits_agree C N fuel (enc_init N m) pre -> splits_inside C N fuel (enc_init N m) (pre ++ post) ->
  compress C N fuel m (pre ++ post) = Ok code ->
  forall rounds fuel' r, decompress C N rounds fuel' m code (Z.of_nat (length (pre ++ post))) = Ok r ->
    exists rest, r = pre ++ rest.
Proof. intros HN Ha Hi Ec rounds fuel' r Er. exact (decoded_part C N HN fuel m pre post code rounds fuel' r Ha Hi Ec Er). Qed.

Lemma py_int_le x r : 0 <= r -> (0 <= x <= IZR r)%R -> py_int x <= r.
Proof.
  intros Hr [H0 H1]. unfold py_int. destruct (Rle_dec 0 x) as [_|]; [|lra].
  apply le_IZR. destruct (base_Int_part x). lra.
Qed.

Lemma complement_agree {S} F mul (M : model S) Inv N fuel : complements F M Inv -> forall bits s,
  Forall is_bit bits -> Inv (en_model s) ->
  leaves_room F mul M N fuel s bits -> splits_agree (fp_coder_of F mul M) N fuel s bits.
Proof.
  intros Hc. induction bits as [|b bits IH]; intros s Hb Hm Hr; [exact I|].
  inversion_clear Hb as [|? ? Hb1 Hb2]. destruct Hr as [Hr1 Hr2]. cbn [splits_agree].
  destruct (Hc _ Hm) as (s0 & l0 & s1 & l1 & E0 & E1 & El & I0 & I1 & Ex).
  specialize (Hr1 l0 El). set (r := en_high s - en_low s) in *. set (x := mul (IZR r) (f_exp F l0)) in *.
  assert (Hr : 0 <= r) by (apply le_IZR; lra).
  assert (G1 : 1 <= py_int x) by (apply py_int_ge; [lra|lia]).
  assert (G2 : py_int x <= r) by (apply py_int_le; [exact Hr|lra]).
  assert (Hw : exists m' cut, cm_enc (fp_coder_of F mul M) (en_model s) b r = Ok (m', cut) /\ Inv m' /\ cut = py_int x /\
    cm_upd (fp_coder_of F mul M) (en_model s) b = Ok m').
  { unfold fp_coder_of. cbn [cm_enc cm_upd]. destruct Hb1 as [-> | ->].
    - rewrite E0. cbn [bind Z.eqb]. fold x. exists s0, (Z.max 1 (py_int x)). repeat split; [exact I0|lia].
    - rewrite E1. cbn [bind Z.eqb]. rewrite Ex. fold x. exists s1, (Z.max 1 (py_int x)). repeat split; [exact I1|lia]. }
  destruct Hw as (m' & cut & Ee & Im & -> & Eu). split; [exact Hb1|]. exists m', (py_int x).
  split; [exact Ee|]. split; [unfold fp_coder_of; cbn [cm_dec]; rewrite El; reflexivity|]. split; [exact Eu|]. split; [lia|].
  intros s' out E. apply IH; auto; [|exact (Hr2 _ _ E)].
  destruct (encode_inv _ _ _ _ _ _ _ E) as (m1 & c1 & Ec & Hm1 & _). fold r in Ec. rewrite Ee in Ec. injection Ec as <- _. now rewrite Hm1.
Qed.

Lemma complement_safe {S} F mul (M : model S) Inv N fuel m bits code : (3 <= N)%nat ->
  complements F M Inv -> Inv m -> Forall is_bit bits -> leaves_room F mul M N fuel (enc_init N m) bits ->
  compress (fp_coder_of F mul M) N fuel m bits = Ok code ->
  forall rounds fuel' r, decompress (fp_coder_of F mul M) N rounds fuel' m code (Z.of_nat (length bits)) = Ok r -> r = bits.
Proof.
  intros HN Hc Hm Hb Hr. apply any_safe; [exact HN|]. eapply complement_agree; eauto.
Qed.

(** A coin, whose probabilities are exact *)
Lemma nearest_half : nearest 52 (/ 2) = (/ 2)%R.
Proof.
  replace (/ 2)%R with (IZR 1 / IZR 2)%R by lra. rewrite nearest_quot by lia.
  replace (qnear 52 1 2) with (2 ^ 52) by (vm_compute; reflexivity).
  replace (2 ^ (52 + qexp 1 2)) with (2 * 2 ^ 52) by (vm_compute; reflexivity). rewrite mult_IZR.
  assert (0 < IZR (2 ^ 52))%R by (apply IZR_lt; vm_compute; reflexivity). field. lra.
Qed.

Lemma coin_complements : complements (rounded_exp 52) ACCoin.Coin (fun _ => True).
Proof.
  intros s _. exists s, (ln (/ 2)), s, (ln (/ 2)). repeat apply conj; try reflexivity; try exact I.
  cbn [rounded_exp f_sub f_exp]. rewrite exp_ln, nearest_half by lra. lra.
Qed.

Lemma coin_room fuel : forall bits s, Forall is_bit bits -> enc_ok 32 s ->
  leaves_room (rounded_exp 52) Rmult ACCoin.Coin 32 fuel s bits.
Proof.
  induction bits as [|b bits IH]; intros s Hb Hs; [exact I|]. inversion_clear Hb as [|? ? Hb1 Hb2].
  pose proof Hs as [[Hl Hh] Hf]. cbn [leaves_room]. set (r := en_high s - en_low s).
  assert (Hr : 2 <= r) by lia. assert (Hr' : (2 <= IZR r)%R) by now apply IZR_le.
  assert (Hp : nearest 52 (exp (ln (/ 2))) = (/ 2)%R) by (rewrite exp_ln by lra; apply nearest_half).
  split.
  - intros l E. injection E as <-. cbn [rounded_exp f_exp]. rewrite Hp. lra.
  - intros s' out E. apply IH; [exact Hb2|].
    destruct (encode_inv _ _ _ _ _ _ _ E) as (m1 & c1 & Ec & Hm1 & Er). fold r in Ec.
    unfold fp_coder_of in Ec. cbn [cm_enc ACCoin.Coin m_update bind] in Ec. injection Ec as _ Ec.
    cbn [rounded_exp f_exp f_sub] in Ec. rewrite Hp in Ec.
    replace (if b =? 0 then / 2 else 1 - / 2)%R with (/ 2)%R in Ec by (destruct (b =? 0); lra).
    rewrite ACCoin.coin_cut in Ec by lia.
    assert (Hc : 0 <= c1 <= r). { subst c1. pose proof (Z.div_mod r 2 ltac:(lia)). pose proof (Z.mod_pos_bound r 2 ltac:(lia)). lia. }
    rewrite Hf in Er.
    assert (Hlow : 0 <= (if b =? 0 then en_low s else en_low s + c1)) by (destruct (b =? 0); lia).
    assert (Hhigh : (if b =? 0 then en_low s + c1 else en_high s) <= top 32) by (destruct (b =? 0); lia).
    split; [eapply (renorm_straddles 32 ltac:(lia)); eassumption|]. apply (renorm_bits 32 ltac:(lia)) in Er. apply Er.
Qed.

Lemma kt_part_example : let bits := alternating 17 in
  splits_agree (fp_coder_of (rounded_exp 52) Rmult (q_model QKT_class)) 32 40 (enc_init 32 (qkt_init [0; 1])) (firstn 5 bits) /\
  splits_inside (fp_coder_of (rounded_exp 52) Rmult (q_model QKT_class)) 32 40 (enc_init 32 (qkt_init [0; 1])) bits.
Proof.
  cbv zeta. change (fp_coder_of (rounded_exp 52) Rmult (q_model QKT_class)) with (QKT_rounded 52).
  assert (Hr : erel kt_rel (enc_init 32 (qkt_init [0; 1])) (enc_init 32 (1, 1))) by (repeat split; apply kt_rel_init).
  split; apply (ktn_splits_ok 52 ltac:(lia) 32 40 _ _ _ Hr); vm_compute; reflexivity.
Qed.
