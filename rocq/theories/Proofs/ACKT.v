(** The arithmetic coder with the KT estimator of ctw.py, computed with integers. *)
From Coq Require Import Lra.
From Verif Require Import Model.CtwPTW Spec.ACSpec Proofs.PyFacts Proofs.RealFacts Proofs.ACFacts Proofs.ACDecode Proofs.ACRound Proofs.ACModel Proofs.ACLast.
Open Scope Z_scope.

(** ** Coders that split alike *)
Section sim.
  Context {S T : Type} (C : coder_model S) (D : coder_model T) (Rel : S -> T -> Prop) (N : nat).

  Definition rel1 {A B X} (P : A -> B -> Prop) (x : result (A * X)) (y : result (B * X)) : Prop :=
    match x, y with
    | Ok (a, u), Ok (b, v) => P a b /\ u = v
    | Err e, Err e' => e = e'
    | _, _ => False
    end.

  Hypothesis Henc : forall s t b r, Rel s t -> is_bit b -> rel1 Rel (cm_enc C s b r) (cm_enc D t b r).
  Hypothesis Hdec : forall s t r, Rel s t -> cm_dec C s r = cm_dec D t r.
  Hypothesis Hupd : forall s t b, Rel s t -> is_bit b ->
    match cm_upd C s b, cm_upd D t b with
    | Ok s', Ok t' => Rel s' t' | Err e, Err e' => e = e' | _, _ => False end.

  Definition erel (s : @enc S) (t : @enc T) : Prop :=
    Rel (en_model s) (en_model t) /\ en_low s = en_low t /\ en_high s = en_high t /\ en_follow s = en_follow t.

  Lemma encode_sim fuel s t b : erel s t -> is_bit b ->
    rel1 erel (encode C N fuel s b) (encode D N fuel t b).
  Proof.
    intros (Hr & El & Eh & Ef) Hb. unfold encode. rewrite El, Eh, Ef.
    specialize (Henc _ _ b (en_high t - en_low t) Hr Hb).
    destruct (cm_enc C _ _ _) as [[s' c]|e], (cm_enc D _ _ _) as [[t' c']|e']; cbn in Henc; try easy.
    all: try (cbn; now subst).
    destruct Henc as [Hr' ->]. cbn [bind].
    destruct (b =? 0); destruct (renorm N fuel _ _ _) as [[[[l h] f] o]|e]; cbn; try easy.
  Qed.

  Lemma encode_all_sim fuel bits : Forall is_bit bits -> forall s t, erel s t ->
    rel1 erel (encode_all C N fuel s bits) (encode_all D N fuel t bits).
  Proof.
    induction 1 as [|b bits Hb _ IH]; intros s t Hr; [easy|]. cbn [encode_all].
    pose proof (encode_sim fuel s t b Hr Hb) as H.
    destruct (encode C N fuel s b) as [[s' o]|e], (encode D N fuel t b) as [[t' o']|e']; cbn in H; try easy.
    all: try (cbn; now subst).
    destruct H as [Hr' ->]. cbn [bind]. specialize (IH s' t' Hr').
    destruct (encode_all C N fuel s' bits) as [[s2 o2]|e], (encode_all D N fuel t' bits) as [[t2 o2']|e']; cbn in IH; try easy.
    cbn. destruct IH as [? ->]. auto.
  Qed.

  Lemma compress_sim fuel m m' bits : Forall is_bit bits -> Rel m m' ->
    compress C N fuel m bits = compress D N fuel m' bits.
  Proof.
    intros Hb Hr. unfold compress.
    assert (He : erel (enc_init N m) (enc_init N m')) by (repeat split; exact Hr).
    pose proof (encode_all_sim fuel bits Hb _ _ He) as H.
    destruct (encode_all C N fuel _ bits) as [[s' o]|e], (encode_all D N fuel _ bits) as [[t' o']|e']; cbn in H; try easy.
    all: try (cbn; now subst).
    destruct H as [(_ & El & _ & Ef) ->]. cbn [bind]. unfold enc_flush. now rewrite El, Ef.
  Qed.

  Lemma loop_sim fuel : forall s t low high v, Rel s t ->
    match decode_loop C N fuel s low high v, decode_loop D N fuel t low high v with
    | Ok (s', l, h, o), Ok (t', l', h', o') => Rel s' t' /\ l = l' /\ h = h' /\ o = o'
    | Err e, Err e' => e = e'
    | _, _ => False
    end.
  Proof.
    induction fuel as [|fuel IH]; intros s t low high v Hr; [reflexivity|]. cbn [decode_loop].
    destruct ((low <? half N) && (half N <? high)); [|easy].
    rewrite (Hdec _ _ (high - low) Hr). destruct (cm_dec D t (high - low)) as [cut|e]; [|reflexivity]. cbn [bind].
    set (sy := if v <? low + cut then 0 else 1).
    assert (Hb : is_bit sy) by (subst sy; destruct (v <? low + cut); [now left|now right]).
    specialize (Hupd s t sy Hr Hb).
    destruct (cm_upd C s sy) as [s'|e], (cm_upd D t sy) as [t'|e']; try easy. cbn [bind].
    destruct (sy =? 0);
    match goal with |- context [decode_loop C N fuel s' ?a ?b v] =>
      specialize (IH s' t' a b v Hupd);
      destruct (decode_loop C N fuel s' a b v) as [[[[s2 l2] h2] o2]|e], (decode_loop D N fuel t' a b v) as [[[[t2 l2'] h2'] o2']|e']
    end; cbn; try easy; destruct IH as (? & -> & -> & ->); auto.
  Qed.

  Definition drel (s : @dec S) (t : @dec T) : Prop :=
    Rel (de_model s) (de_model t) /\ de_low s = de_low t /\ de_high s = de_high t /\ de_value s = de_value t.

  Lemma decode_sim fuel s t x : drel s t -> rel1 drel (decode C N fuel s x) (decode D N fuel t x).
  Proof.
    intros (Hr & El & Eh & Ev). unfold decode. rewrite El, Eh, Ev.
    destruct (dec_shift N (de_low t) (de_high t) (de_value t) x) as [[l h] v].
    pose proof (loop_sim fuel _ _ l h v Hr) as H.
    destruct (decode_loop C N fuel _ l h v) as [[[[s2 l2] h2] o2]|e], (decode_loop D N fuel _ l h v) as [[[[t2 l2'] h2'] o2']|e'];
      cbn; try easy.
  Qed.

  Lemma decode_all_sim fuel xs : forall s t, drel s t ->
    rel1 drel (decode_all C N fuel s xs) (decode_all D N fuel t xs).
  Proof.
    induction xs as [|x xs IH]; intros s t Hr; [easy|]. cbn [decode_all].
    pose proof (decode_sim fuel s t x Hr) as H.
    destruct (decode C N fuel s x) as [[s' o]|e], (decode D N fuel t x) as [[t' o']|e']; cbn in H; try easy.
    all: try (cbn; now subst).
    destruct H as [Hr' ->]. cbn [bind]. specialize (IH s' t' Hr').
    destruct (decode_all C N fuel s' xs) as [[s2 o2]|e], (decode_all D N fuel t' xs) as [[t2 o2']|e']; cbn in IH; try easy.
    cbn. destruct IH as [? ->]. auto.
  Qed.

  Lemma flush_sim fuel nb : forall rounds s t acc, drel s t ->
    flush_loop C N rounds fuel s nb acc = flush_loop D N rounds fuel t nb acc.
  Proof.
    induction rounds as [|rounds IH]; intros s t acc Hr; cbn [flush_loop];
      destruct (Z.of_nat (length acc) <? nb); try reflexivity.
    pose proof (decode_sim fuel s t 0 Hr) as H.
    destruct (decode C N fuel s 0) as [[s' o]|e], (decode D N fuel t 0) as [[t' o']|e']; cbn in H; try easy.
    all: try (cbn; now subst).
    destruct H as [Hr' ->]. cbn [bind]. now apply IH.
  Qed.

  Lemma decompress_sim rounds fuel m m' bits n : Rel m m' ->
    decompress C N rounds fuel m bits n = decompress D N rounds fuel m' bits n.
  Proof.
    intros Hr. unfold decompress.
    assert (Hd : drel (dec_init m) (dec_init m')) by (repeat split; exact Hr).
    pose proof (decode_all_sim fuel bits _ _ Hd) as H.
    destruct (decode_all C N fuel _ bits) as [[s' o]|e], (decode_all D N fuel _ bits) as [[t' o']|e']; cbn in H; try easy.
    all: try (cbn; now subst).
    destruct H as [Hr' ->]. cbn [bind]. unfold dec_flush. rewrite (flush_sim fuel _ rounds s' t' [] Hr'). reflexivity.
  Qed.
End sim.

(** ** KT over {0, 1} with twice its counts *)
Definition kti := (Z * Z)%type.
Definition kti_upd (s : kti) (b : Z) : kti := if b =? 0 then (fst s + 2, snd s) else (fst s, snd s + 2).
Definition kti_cut (s : kti) (r : Z) : Z := Z.quot (r * fst s) (fst s + snd s).
Definition KTI : coder_model kti := CoderModel
  (fun s b r => Ok (kti_upd s b, Z.max 1 (kti_cut s r)))
  (fun s r => Ok (kti_cut s r))
  (fun s b => Ok (kti_upd s b)).

Definition QKT_coder := coder_of (q_model QKT_class).

Definition kt_rel (s : qkt) (t : kti) : Prop :=
  0 < fst t /\ 0 < snd t /\ qk_counts s = [(0, (IZR (fst t) / 2)%R); (1, (IZR (snd t) / 2)%R)].

Lemma py_int_quot r c n : 0 < n -> 0 <= c -> py_int (IZR r * (IZR c / IZR n)) = Z.quot (r * c) n.
Proof.
  intros Hn Hc. assert (Hn' : (0 < IZR n)%R) by now apply IZR_lt.
  assert (Hc' : (0 <= IZR c)%R) by now apply IZR_le.
  assert (Hpos : forall r, 0 <= r -> Int_part (IZR r * (IZR c / IZR n)) = Z.quot (r * c) n).
  { intros r0 Hr0. rewrite Z.quot_div_nonneg by nia. apply Int_part_spec.
    pose proof (Z.div_mod (r0 * c) n ltac:(lia)) as Hd. pose proof (Z.mod_pos_bound (r0 * c) n Hn) as Hm.
    set (k := r0 * c / n) in *. apply (f_equal IZR) in Hd. rewrite plus_IZR, !mult_IZR in Hd.
    destruct Hm as [Hm1 Hm2]. apply IZR_le in Hm1. apply IZR_lt in Hm2.
    replace (IZR r0 * (IZR c / IZR n))%R with ((IZR r0 * IZR c) / IZR n)%R by (field; lra).
    rewrite Hd. replace ((IZR n * IZR k + IZR ((r0 * c) mod n)) / IZR n)%R
      with (IZR k + IZR ((r0 * c) mod n) / IZR n)%R by (field; lra).
    assert (0 <= IZR ((r0 * c) mod n) / IZR n < 1)%R.
    { split.
      - apply Rmult_le_pos; [exact Hm1|]. left. now apply Rinv_0_lt_compat.
      - apply Rmult_lt_reg_r with (IZR n); [exact Hn'|]. unfold Rdiv. rewrite Rmult_assoc, Rinv_l by lra. lra. }
    lra. }
  assert (Hq : (0 <= IZR c / IZR n)%R) by (apply Rmult_le_pos; [exact Hc'|left; now apply Rinv_0_lt_compat]).
  unfold py_int. destruct (Rle_dec 0 _) as [H|H].
  - destruct (Z_le_gt_dec 0 r) as [Hr|Hr]; [now apply Hpos|].
    assert (Hr' : (IZR r < 0)%R) by (apply IZR_lt; lia).
    destruct Hq as [Hq|Hq]; [nra|].
    assert (c = 0) as ->.
    { assert (IZR c = 0)%R; [|now apply eq_IZR].
      apply Rmult_eq_reg_r with (/ IZR n)%R; [unfold Rdiv in Hq; lra|].
      apply Rinv_neq_0_compat. lra. }
    rewrite Z.mul_0_r, Z.quot_0_l by lia. rewrite <- Hq, Rmult_0_r. apply Int_part_spec. cbn. lra.
  - assert (Hr : r < 0).
    { destruct (Z_lt_ge_dec r 0) as [|Hr]; [assumption|].
      assert (0 <= IZR r)%R by (apply IZR_le; lia). exfalso. apply H. nra. }
    replace (- (IZR r * (IZR c / IZR n)))%R with (IZR (- r) * (IZR c / IZR n))%R by (rewrite opp_IZR; ring).
    rewrite Hpos by lia. rewrite Z.mul_opp_l, Z.quot_opp_l by lia. lia.
Qed.

Lemma kt_rel_logp s t b : kt_rel s t -> is_bit b ->
  exists l, qkt_log_predict s b [] = Ok l /\
    exp l = (IZR (if b =? 0 then fst t else snd t) / IZR (fst t + snd t))%R.
Proof.
  intros (H0 & H1 & E) Hb. unfold qkt_log_predict. rewrite E.
  assert (A0 : (0 < IZR (fst t))%R) by now apply IZR_lt. assert (A1 : (0 < IZR (snd t))%R) by now apply IZR_lt.
  assert (Hs : Rsum (dict_values [(0, (IZR (fst t) / 2)%R); (1, (IZR (snd t) / 2)%R)]) = (IZR (fst t + snd t) / 2)%R).
  { rewrite plus_IZR. unfold dict_values. cbn [map snd]. rewrite !Rsum_cons. cbn. lra. }
  rewrite Hs, plus_IZR.
  destruct Hb as [-> | ->]; cbn [Z.eqb Pos.eqb dict_lookup dict_get bind];
    rewrite !py_log_ok by lra; cbn [bind]; eexists; (split; [reflexivity|]);
    unfold Rminus; rewrite exp_plus, exp_Ropp, !exp_ln by lra; field; lra.
Qed.

Lemma kt_rel_update s t b : kt_rel s t -> is_bit b ->
  exists s' l, qkt_update s b [] 1%R = Ok (s', l) /\ kt_rel s' (kti_upd t b) /\
    exp l = (IZR (if b =? 0 then fst t else snd t) / IZR (fst t + snd t))%R.
Proof.
  intros Hr Hb. destruct (kt_rel_logp s t b Hr Hb) as (l & El & Hl).
  destruct Hr as (H0 & H1 & E). unfold qkt_update. rewrite El. cbn [bind]. rewrite E.
  destruct Hb as [-> | ->]; cbn [Z.eqb Pos.eqb dict_lookup dict_get bind dict_set]; eexists; exists l;
    (split; [reflexivity|]); (split; [|exact Hl]); unfold kt_rel, kti_upd; cbn [Z.eqb fst snd qk_counts];
    (split; [lia|]); (split; [lia|]); rewrite plus_IZR;
    match goal with |- context [(?a / 2 + 1)%R] => replace (a / 2 + 1)%R with ((a + 2) / 2)%R by lra end; reflexivity.
Qed.

Lemma KTI_enc s t b r : kt_rel s t -> is_bit b -> rel1 kt_rel (cm_enc QKT_coder s b r) (cm_enc KTI t b r).
Proof.
  intros Hr Hb. destruct (kt_rel_update s t b Hr Hb) as (s' & l & Eu & Hr' & Hl).
  destruct Hr as (H0 & H1 & _).
  unfold QKT_coder, coder_of. cbn [cm_enc KTI q_model QKT_class m_update]. rewrite Eu. cbn [bind rel1].
  split; [exact Hr'|]. f_equal. unfold kti_cut.
  rewrite <- py_int_quot by lia. do 2 f_equal.
  assert (A0 : (0 < IZR (fst t))%R) by now apply IZR_lt. assert (A1 : (0 < IZR (snd t))%R) by now apply IZR_lt.
  destruct Hb as [-> | ->]; cbn [Z.eqb] in *; rewrite Hl; [reflexivity|]. rewrite plus_IZR. field. lra.
Qed.

Lemma KTI_dec s t r : kt_rel s t -> cm_dec QKT_coder s r = cm_dec KTI t r.
Proof.
  intros Hr. destruct (kt_rel_logp s t 0 Hr ltac:(now left)) as (l & El & Hl). destruct Hr as (H0 & H1 & _).
  unfold QKT_coder, coder_of. cbn [cm_dec KTI q_model QKT_class m_logp]. rewrite El. cbn [bind].
  rewrite Hl. cbn [Z.eqb]. unfold kti_cut. rewrite <- py_int_quot by lia. reflexivity.
Qed.

Lemma KTI_upd s t b : kt_rel s t -> is_bit b ->
  match cm_upd QKT_coder s b, cm_upd KTI t b with
  | Ok s', Ok t' => kt_rel s' t' | Err e, Err e' => e = e' | _, _ => False end.
Proof.
  intros Hr Hb. destruct (kt_rel_update s t b Hr Hb) as (s' & l & Eu & Hr' & _).
  unfold QKT_coder, coder_of. cbn [cm_upd KTI q_model QKT_class m_update]. rewrite Eu. exact Hr'.
Qed.

Lemma kt_rel_init : kt_rel (qkt_init [0; 1]) (1, 1).
Proof. unfold kt_rel. cbn. split; [lia|]. split; [lia|]. unfold INR. repeat f_equal; lra. Qed.

Lemma kt_compress N fuel bits : Forall is_bit bits ->
  compress QKT_coder N fuel (qkt_init [0; 1]) bits = compress KTI N fuel (1, 1) bits.
Proof.
  intros Hb. apply (compress_sim _ _ kt_rel); [|exact Hb|apply kt_rel_init].
  intros; now apply KTI_enc.
Qed.

Lemma kt_decompress N rounds fuel bits n :
  decompress QKT_coder N rounds fuel (qkt_init [0; 1]) bits n = decompress KTI N rounds fuel (1, 1) bits n.
Proof.
  apply (decompress_sim _ _ kt_rel); [| |apply kt_rel_init].
  - intros; now apply KTI_dec.
  - intros; now apply KTI_upd.
Qed.

(** ** A loop of the decoder that does not end *)
Section steps.
  Context {S : Type} (C : coder_model S) (N : nat).

  Definition loop_step (v : Z) (x : S * Z * Z) : option (S * Z * Z) :=
    let '(m, low, high) := x in
    if (low <? half N) && (half N <? high) then
      match cm_dec C m (high - low) with
      | Ok cut =>
          let sy := if v <? low + cut then 0 else 1 in
          match cm_upd C m sy with
          | Ok m' => Some (if sy =? 0 then (m', low, low + cut) else (m', low + cut, high))
          | Err _ => None
          end
      | Err _ => None
      end
    else None.

  Fixpoint loop_iter (n : nat) (v : Z) (x : S * Z * Z) : option (S * Z * Z) :=
    match n with
    | O => Some x
    | Datatypes.S n' => match loop_step v x with Some y => loop_iter n' v y | None => None end
    end.

  Lemma loop_iter_hang n v : forall m low high m' low' high',
    loop_iter n v (m, low, high) = Some (m', low', high') ->
    (forall F r, decode_loop C N F m' low' high' v <> Ok r) ->
    forall F r, decode_loop C N F m low high v <> Ok r.
  Proof.
    induction n as [|n IH]; intros m low high m' low' high' E H F r.
    - injection E as -> -> ->. apply H.
    - cbn [loop_iter] in E. destruct (loop_step v (m, low, high)) as [[[m1 l1] h1]|] eqn:E1; [|discriminate].
      destruct F as [|F]; [discriminate|]. specialize (IH _ _ _ _ _ _ E H F).
      unfold loop_step in E1. cbn [decode_loop].
      destruct ((low <? half N) && (half N <? high)); [|discriminate].
      destruct (cm_dec C m (high - low)) as [cut|]; [|discriminate]. cbn [bind].
      set (sy := if v <? low + cut then 0 else 1) in *.
      destruct (cm_upd C m sy) as [m2|]; [|discriminate]. cbn [bind].
      destruct (sy =? 0); injection E1 as <- <- <-;
        match goal with |- context [decode_loop C N F ?a ?b ?c v] =>
          destruct (decode_loop C N F a b c v) as [y|] eqn:Ey; [now destruct (IH y)|discriminate] end.
  Qed.
End steps.

(** Once the zero part is empty, KT keeps decoding ones. *)
Lemma kti_stuck N v F : forall c0 c1 low high r,
  low < half N < high -> low <= v -> 0 < c0 -> 0 < c1 -> (high - low) * c0 < c0 + c1 ->
  decode_loop KTI N F (c0, c1) low high v <> Ok r.
Proof.
  induction F as [|F IH]; intros c0 c1 low high r H Hv Hc0 Hc1 Hs; [discriminate|].
  cbn [decode_loop]. destruct (Z.ltb_spec low (half N)); [|lia]. destruct (Z.ltb_spec (half N) high); [|lia].
  cbn [andb KTI cm_dec cm_upd bind]. unfold kti_cut. cbn [fst snd].
  rewrite Z.quot_small by nia. rewrite Z.add_0_r.
  destruct (Z.ltb_spec v low); [lia|]. cbn [Z.eqb]. unfold kti_upd. cbn [Z.eqb fst snd].
  destruct (decode_loop KTI N F (c0, c1 + 2) low high v) as [y|] eqn:E; [|discriminate].
  exfalso. revert E. apply IH; nia || lia.
Qed.

Lemma kti_path_step N fuel c0 c1 low high f b bits s' out :
  is_bit b -> 1 <= kti_cut (c0, c1) (high - low) <= high - low ->
  encode KTI N fuel (Enc (c0, c1) low high f) b = Ok (s', out) -> path_ok KTI N fuel s' bits ->
  path_ok KTI N fuel (Enc (c0, c1) low high f) (b :: bits).
Proof.
  intros Hb Hc E Hp. cbn [path_ok en_model en_low en_high]. split; [exact Hb|].
  exists (kti_upd (c0, c1) b), (kti_cut (c0, c1) (high - low)).
  split; [cbn; do 2 f_equal; lia|]. split; [reflexivity|]. split; [reflexivity|]. split; [lia|].
  intros s2 o2 E2. rewrite E in E2. injection E2 as <- <-. exact Hp.
Qed.

(** The message 1 1. *)
Lemma kti_hang rounds fuel r : decompress KTI 32 rounds fuel (1, 1) [1; 1; 0] 2 <> Ok r.
Proof.
  assert (E : encode_all KTI 32 40 (enc_init 32 (1, 1)) [1; 1] = Ok (Enc (1, 5) (2 ^ 30) (2 ^ 32) 0, [1])).
  { vm_compute. reflexivity. }
  assert (Hp : path_ok KTI 32 40 (enc_init 32 (1, 1)) [1; 1]).
  { eapply kti_path_step; [now right|vm_compute; split; discriminate|vm_compute; reflexivity|].
    eapply kti_path_step; [now right|vm_compute; split; discriminate|vm_compute; reflexivity|].
    exact I. }
  assert (H := decompress_hang KTI 32 ltac:(lia) 40 (1, 1) [1; 1] _ [1] Hp E ltac:(lia) rounds fuel r).
  change ([1] ++ enc_flush 32 (Enc (1, 5) (2 ^ 30) (2 ^ 32) 0)) with [1; 1; 0] in H.
  apply H; [discriminate|vm_compute; reflexivity|]. clear H.
  cbn [en_model en_low en_high].
  change (if 2 ^ 30 <? q1_4 32 then q1_4 32 else half 32) with (2 ^ 31).
  eapply (loop_iter_hang KTI 32 80 (2 ^ 31) (1, 5) (2 ^ 30) (2 ^ 32)).
  { vm_compute. reflexivity. }
  intros F x.
  apply kti_stuck; vm_compute; try reflexivity; try (split; reflexivity); discriminate.
Qed.
