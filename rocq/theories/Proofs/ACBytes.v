(** The byte-level functions of the arithmetic coder. *)
From Verif Require Import Model.CtwPTW Spec.ACSpec Proofs.PyFacts Proofs.ACFacts Proofs.ACDecode Proofs.ACRound Proofs.ACModel Proofs.ACLast Proofs.ACKT.
Open Scope Z_scope.

(** ** Fuel *)
Section mono.
  Context {S : Type} (C : coder_model S) (N : nat).

  Lemma loop_mono F : forall m low high v r, decode_loop C N F m low high v = Ok r ->
    forall f, (F <= f)%nat -> decode_loop C N f m low high v = Ok r.
  Proof.
    induction F as [|F IHF]; intros m low high v r H f Hf; [discriminate|].
    destruct f as [|f]; [lia|]. cbn [decode_loop] in *.
    destruct ((low <? half N) && (half N <? high)); [|exact H].
    destruct (cm_dec C m (high - low)) as [cut|]; [|discriminate]. cbn [bind] in *.
    destruct (cm_upd C m _) as [m'|]; [|discriminate]. cbn [bind] in *.
    destruct (_ =? 0);
    match goal with H : bind (decode_loop C N F ?a ?b ?c ?d) _ = _ |- _ =>
      destruct (decode_loop C N F a b c d) as [[[[m1 l1] h1] o1]|] eqn:E1; [|discriminate];
      rewrite (IHF _ _ _ _ _ E1 f) by lia; exact H end.
  Qed.

  Lemma decode_mono F f s x r : decode C N F s x = Ok r -> (F <= f)%nat -> decode C N f s x = Ok r.
  Proof.
    unfold decode. destruct (dec_shift _ _ _ _ _) as [[l h] v]. intros H Hf.
    destruct (decode_loop C N F _ l h v) as [y|] eqn:E; [|discriminate].
    rewrite (loop_mono _ _ _ _ _ _ E f Hf). exact H.
  Qed.

  Lemma decode_all_mono F f : (F <= f)%nat -> forall xs s r,
    decode_all C N F s xs = Ok r -> decode_all C N f s xs = Ok r.
  Proof.
    intros Hf. induction xs as [|x xs IH]; intros s r H; [exact H|]. cbn [decode_all] in *.
    destruct (decode C N F s x) as [[s1 o1]|] eqn:E1; [|discriminate]. rewrite (decode_mono _ _ _ _ _ E1 Hf).
    cbn [bind] in *. destruct (decode_all C N F s1 xs) as [y|] eqn:E2; [|discriminate].
    rewrite (IH _ _ E2). exact H.
  Qed.

  Lemma flush_mono F f nb : (F <= f)%nat -> forall K k s acc r, (K <= k)%nat ->
    flush_loop C N K F s nb acc = Ok r -> flush_loop C N k f s nb acc = Ok r.
  Proof.
    intros Hf. induction K as [|K IH]; intros k s acc r Hk H; cbn [flush_loop] in H.
    - destruct k; cbn [flush_loop]; destruct (Z.of_nat (length acc) <? nb); try discriminate; exact H.
    - destruct k as [|k]; [lia|]. cbn [flush_loop].
      destruct (Z.of_nat (length acc) <? nb); [|exact H].
      destruct (decode C N F s 0) as [[s1 o1]|] eqn:E1; [|discriminate]. rewrite (decode_mono _ _ _ _ _ E1 Hf).
      cbn [bind] in *. apply IH; [lia|exact H].
  Qed.

  Lemma decompress_mono F f K k m bits n r : (F <= f)%nat -> (K <= k)%nat ->
    decompress C N K F m bits n = Ok r -> decompress C N k f m bits n = Ok r.
  Proof.
    intros Hf Hk H. unfold decompress, dec_flush in *.
    destruct (decode_all C N F _ bits) as [[s o]|] eqn:E1; [|discriminate].
    rewrite (decode_all_mono _ _ Hf _ _ _ E1). cbn [bind] in *.
    destruct (flush_loop C N K F s _ []) as [y|] eqn:E2; [|discriminate].
    rewrite (flush_mono _ _ _ Hf _ _ _ _ _ Hk E2). exact H.
  Qed.

  (** The fuel does not matter for what is returned. *)
  Lemma decompress_det F f K k m bits n r r' :
    decompress C N K F m bits n = Ok r -> decompress C N k f m bits n = Ok r' -> r = r'.
  Proof.
    intros H H'.
    apply (decompress_mono F (Nat.max F f) K (Nat.max K k)) in H; try lia.
    apply (decompress_mono f (Nat.max F f) k (Nat.max K k)) in H'; try lia.
    rewrite H in H'. now injection H'.
  Qed.
End mono.

(** ** Packing reverses the bits of a byte *)
Definition bits_of (x : Z) : list Z := map (fun i => Z.land (Z.shiftr x (Z.of_nat i)) 1) (seq 0 8).

Lemma bits_of_div x : bits_of x = map (fun i => (x / 2 ^ Z.of_nat i) mod 2) (seq 0 8).
Proof.
  unfold bits_of. apply map_ext. intros i. rewrite Z.shiftr_div_pow2 by lia.
  change 1 with (Z.ones 1). rewrite Z.land_ones by lia. reflexivity.
Qed.

Lemma of_digits_reversed x : of_digits (bits_of x) = byte_reversed x.
Proof.
  rewrite bits_of_div. unfold of_digits, byte_reversed. cbn [seq map fold_left]. reflexivity.
Qed.

Lemma pack_cons8 l rest : length l = 8%nat -> pack (l ++ rest) = of_digits l :: pack rest.
Proof.
  intros H. unfold pack. destruct l as [|a l]; [discriminate|].
  rewrite app_length. replace (length (a :: l) + length rest)%nat with (Datatypes.S (7 + length rest)) by lia.
  assert (Hmono : forall f g l, (length l <= f)%nat -> (length l <= g)%nat -> pack_from f l = pack_from g l).
  { clear. induction f as [|f IH]; intros g l Hf Hg.
    - destruct l; [|cbn in Hf; lia]. destruct g; reflexivity.
    - destruct l as [|x l]; [destruct g; reflexivity|]. destruct g as [|g]; [cbn in Hg; lia|].
      cbn [pack_from]. f_equal. pose proof (skipn_length 8 (x :: l)) as Hs. cbn [length] in *. apply IH; lia. }
  cbn [pack_from app]. change (a :: l ++ rest) with ((a :: l) ++ rest).
  rewrite firstn_app, H, Nat.sub_diag, firstn_all2 by lia. cbn [firstn]. rewrite app_nil_r, H.
  cbn [Nat.sub repeat]. rewrite app_nil_r. f_equal.
  rewrite skipn_app, H, Nat.sub_diag, skipn_all2 by lia. cbn [app skipn]. apply Hmono; lia.
Qed.

Lemma pack_unpack bytes : pack (unpack bytes) = map byte_reversed bytes.
Proof.
  induction bytes as [|x bytes IH]; [reflexivity|].
  change (unpack (x :: bytes)) with (bits_of x ++ unpack bytes).
  rewrite pack_cons8 by reflexivity. rewrite IH, of_digits_reversed. reflexivity.
Qed.

Lemma unpack_bits bytes : Forall is_bit (unpack bytes).
Proof.
  induction bytes as [|x bytes IH]; [constructor|].
  change (unpack (x :: bytes)) with (bits_of x ++ unpack bytes). apply Forall_app. split; [|exact IH].
  rewrite bits_of_div. apply Forall_forall. intros b Hb. apply in_map_iff in Hb as (i & <- & _).
  pose proof (Z.mod_pos_bound (x / 2 ^ Z.of_nat i) 2 ltac:(lia)). unfold is_bit. lia.
Qed.

Lemma unpack_length bytes : length (unpack bytes) = (8 * length bytes)%nat.
Proof.
  induction bytes as [|x bytes IH]; [reflexivity|].
  change (unpack (x :: bytes)) with (bits_of x ++ unpack bytes). rewrite app_length, IH. cbn [length bits_of map seq]. lia.
Qed.

(** Reversal is an involution on bytes, and not the identity. *)
Lemma byte_reversed_twice x : is_byte x -> is_byte (byte_reversed x) /\ byte_reversed (byte_reversed x) = x.
Proof.
  intros H.
  assert (Hall : forallb (fun i => let y := Z.of_nat i in
    (0 <=? byte_reversed y) && (byte_reversed y <? 256) && (byte_reversed (byte_reversed y) =? y)) (seq 0 256) = true)
    by (vm_compute; reflexivity).
  rewrite forallb_forall in Hall. specialize (Hall (Z.to_nat x)). cbn zeta in Hall. rewrite Z2Nat.id in Hall by apply H.
  rewrite !andb_true_iff, Z.leb_le, Z.ltb_lt, Z.eqb_eq in Hall.
  unfold is_byte in *. destruct Hall as [[? ?] ?]; [|auto]. apply in_seq. lia.
Qed.

(** If the bit level returns the message, every byte comes back reversed. *)
Lemma bytes_reversed {S} (C : coder_model S) N rounds fuel m cbytes data r :
  decompress C N rounds fuel m (unpack cbytes) (Z.of_nat (length (unpack data))) = Ok (unpack data) ->
  decompress_bytes C N rounds fuel m cbytes (Z.of_nat (length data)) = Ok r ->
  r = map byte_reversed data.
Proof.
  unfold decompress_bytes. rewrite unpack_length. intros H.
  replace (Z.of_nat (length data) * 8) with (Z.of_nat (8 * length data)) by lia. rewrite H. cbn [bind].
  rewrite pack_unpack. intros [= <-]. reflexivity.
Qed.

(** ** The byte 1 *)
Lemma kti_byte : compress_bytes KTI 32 40 (1, 1) [1] = Ok [129] /\
  decompress_bytes KTI 32 40 400 (1, 1) [129] 1 = Ok [128].
Proof. split; vm_compute; reflexivity. Qed.

Lemma qkt_byte_wrong :
  compress_bytes QKT_coder 32 40 (qkt_init [0; 1]) [1] = Ok [129] /\
  decompress_bytes QKT_coder 32 40 400 (qkt_init [0; 1]) [129] 1 = Ok [128] /\
  forall rounds fuel, decompress_bytes QKT_coder 32 rounds fuel (qkt_init [0; 1]) [129] 1 <> Ok [1].
Proof.
  destruct kti_byte as [H1 H2].
  assert (A2 : decompress_bytes QKT_coder 32 40 400 (qkt_init [0; 1]) [129] 1 = Ok [128]).
  { rewrite <- H2. unfold decompress_bytes. now rewrite kt_decompress. }
  split; [|split; [exact A2|]].
  - rewrite <- H1. unfold compress_bytes. rewrite kt_compress; [reflexivity|apply unpack_bits].
  - intros rounds fuel H. unfold decompress_bytes in *.
    destruct (decompress QKT_coder 32 40 400 _ _ _) as [b1|] eqn:E1; [|discriminate].
    destruct (decompress QKT_coder 32 rounds fuel _ _ _) as [b2|] eqn:E2; [|discriminate].
    rewrite (decompress_det _ _ _ _ _ _ _ _ _ _ _ E2 E1) in H. cbn [bind] in *.
    rewrite H in A2. discriminate.
Qed.

(** The message 1 1 with KT: compressed to 1 1 0, never decompressed. *)
Lemma qkt_hang :
  compress QKT_coder 32 40 (qkt_init [0; 1]) [1; 1] = Ok [1; 1; 0] /\
  forall rounds fuel r, decompress QKT_coder 32 rounds fuel (qkt_init [0; 1]) [1; 1; 0] 2 <> Ok r.
Proof.
  split.
  - rewrite kt_compress; [vm_compute; reflexivity|]. repeat apply Forall_cons; try apply Forall_nil; now right.
  - intros rounds fuel r. rewrite kt_decompress. apply kti_hang.
Qed.
