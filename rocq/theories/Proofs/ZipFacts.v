(** Facts about z.py: bits, bytes, chunks and bars. *)
From Coq Require Import Lra.
From Verif Require Import Spec.ZipSpec Proofs.ACFacts Proofs.ACModel Proofs.ACBytes Proofs.ACLossless Proofs.ZipModels.
Open Scope Z_scope.

Lemma file_bits data : unpack data = bits_of_file data.
Proof.
  unfold unpack, bits_of_file. induction data as [|b data IH]; [reflexivity|]. cbn [flat_map]. f_equal; [|exact IH].
  pose proof (bits_of_div b) as H. unfold bits_of in H. rewrite H. cbn [seq map]. rewrite Z.div_1_r. reflexivity.
Qed.

Lemma file_bits_length data : length (bits_of_file data) = (8 * length data)%nat.
Proof. rewrite <- file_bits. apply unpack_length. Qed.

Lemma file_bits_bits data : Forall is_bit (bits_of_file data).
Proof. rewrite <- file_bits. apply unpack_bits. Qed.

Lemma byte_of_bits_dec : forall a b c d e f g h : bool,
  forallb (fun '(x, y) => x =? y) (combine [Z.b2z a; Z.b2z b; Z.b2z c; Z.b2z d; Z.b2z e; Z.b2z f; Z.b2z g; Z.b2z h]
    (let n := of_digits [Z.b2z a; Z.b2z b; Z.b2z c; Z.b2z d; Z.b2z e; Z.b2z f; Z.b2z g; Z.b2z h] in
     [n / 128 mod 2; n / 64 mod 2; n / 32 mod 2; n / 16 mod 2; n / 8 mod 2; n / 4 mod 2; n / 2 mod 2; n mod 2])) = true.
Proof. intros [] [] [] [] [] [] [] []; reflexivity. Qed.

Lemma bit_b2z x : is_bit x -> exists b, x = Z.b2z b.
Proof. intros [-> | ->]; [now exists false|now exists true]. Qed.

Definition msb_first (b : Z) : list Z :=
  [b / 128 mod 2; b / 64 mod 2; b / 32 mod 2; b / 16 mod 2; b / 8 mod 2; b / 4 mod 2; b / 2 mod 2; b mod 2].

Lemma digits_byte l : length l = 8%nat -> Forall is_bit l -> msb_first (of_digits l) = l /\ is_byte (of_digits l).
Proof.
  intros Hl Hb. do 9 (destruct l as [|? l]; try discriminate). clear Hl.
  repeat match goal with H : Forall is_bit (_ :: _) |- _ => apply Forall_cons_iff in H; destruct H as [?Hb H] end.
  repeat match goal with H : is_bit ?x |- _ => apply bit_b2z in H; destruct H as [? ->] end.
  repeat match goal with b : bool |- _ => destruct b end; split; (reflexivity || (split; [intros X; vm_compute in X; discriminate|reflexivity])).
Qed.

Lemma pack_short l : l <> [] -> (length l < 8)%nat -> pack l = [of_digits (l ++ repeat 0 (8 - length l))].
Proof.
  intros Hn Hl. unfold pack. destruct l as [|a l]; [easy|]. cbn [length pack_from].
  rewrite firstn_all2 by exact (Nat.lt_le_incl _ _ Hl). f_equal.
  rewrite skipn_all2 by exact (Nat.lt_le_incl _ _ Hl). destruct (length l); reflexivity.
Qed.

Lemma pack_holds : forall n bits, (length bits <= n)%nat -> Forall is_bit bits -> holds bits (pack bits).
Proof.
  induction n as [|n IH]; intros bits Hn Hb.
  - destruct bits; [|cbn in Hn; lia]. split; [constructor|]. exists 0%nat. split; [lia|reflexivity].
  - destruct bits as [|x bits]; [split; [constructor|]; exists 0%nat; split; [lia|reflexivity]|].
    set (l := x :: bits) in *. assert (Hne : l <> []) by discriminate.
    destruct (Nat.lt_ge_cases (length l) 8) as [H|H].
    + rewrite pack_short by assumption.
      assert (Hl : length (l ++ repeat 0 (8 - length l)) = 8%nat) by (rewrite app_length, repeat_length; lia).
      assert (Hbb : Forall is_bit (l ++ repeat 0 (8 - length l))).
      { apply Forall_app. split; [exact Hb|]. apply Forall_forall. intros y Hy. apply repeat_spec in Hy. now left. }
      destruct (digits_byte _ Hl Hbb) as [Hd Hy].
      split; [constructor; [exact Hy|constructor]|]. exists (8 - length l)%nat. split; [assert (length l <> 0)%nat by (unfold l; discriminate); lia|].
      cbn [flat_map]. rewrite app_nil_r. symmetry. exact Hd.
    + rewrite <- (firstn_skipn 8 l). assert (Hl : length (firstn 8 l) = 8%nat) by (rewrite firstn_length; lia).
      rewrite pack_cons8 by exact Hl.
      assert (Hb1 : Forall is_bit (firstn 8 l) /\ Forall is_bit (skipn 8 l)) by (apply Forall_app; now rewrite firstn_skipn).
      destruct Hb1 as [Hb1 Hb2]. destruct (digits_byte _ Hl Hb1) as [Hd Hy].
      destruct (IH (skipn 8 l)) as [F (k & Hk & E)]; [rewrite skipn_length; lia|exact Hb2|].
      split; [constructor; assumption|]. exists k. split; [exact Hk|].
      cbn [flat_map]. rewrite <- app_assoc, E. f_equal. symmetry. exact Hd.
Qed.

Lemma holds_same bits bits' bytes : holds bits bytes -> holds bits' bytes -> same_code bits bits'.
Proof. intros [_ (k & _ & E)] [_ (k' & _ & E')]. exists k, k'. now rewrite E, E'. Qed.

Lemma holds_length bits bytes : holds bits bytes -> (8 * length bytes < length bits + 8)%nat /\ (length bits <= 8 * length bytes)%nat.
Proof.
  intros [_ (k & Hk & E)]. apply (f_equal (@length Z)) in E. rewrite app_length, repeat_length in E.
  assert (H : forall l, length (flat_map msb_first l) = (8 * length l)%nat).
  { induction l as [|a l IH]; [reflexivity|]. cbn [flat_map]. rewrite app_length, IH. cbn [length msb_first]. lia. }
  change (flat_map _ bytes) with (flat_map msb_first bytes) in E. rewrite H in E. lia.
Qed.

(** ** The header *)
Lemma header_bytes little n : 0 <= n < 2 ^ 32 -> exists bs, length_bytes little n = Ok bs /\ four_bytes little n bs.
Proof.
  intros Hn. unfold length_bytes. destruct (Z.ltb_spec n (2 ^ 32)) as [_|H]; [|lia].
  eexists. split; [reflexivity|]. cbn [seq map].
  assert (H : forall i, 0 <= i -> Z.land (Z.shiftr n (8 * i)) 255 = n / 2 ^ (8 * i) mod 256).
  { intros i Hi. rewrite Z.shiftr_div_pow2 by lia. change 255 with (Z.ones 8). rewrite Z.land_ones by lia. reflexivity. }
  rewrite !H by lia.
  exists (n mod 256), (n / 256 mod 256), (n / 65536 mod 256), (n / 16777216 mod 256). split; [|split].
  - repeat apply Forall_cons; try apply Forall_nil; apply Z.mod_pos_bound; lia.
  - pose proof (Z.div_mod n 256 ltac:(lia)) as H1. pose proof (Z.div_mod (n / 256) 256 ltac:(lia)) as H2.
    pose proof (Z.div_mod (n / 65536) 256 ltac:(lia)) as H3.
    rewrite Z.div_div in H2 by lia. change (256 * 256) with 65536 in H2.
    rewrite Z.div_div in H3 by lia. change (65536 * 256) with 16777216 in H3.
    assert (H4 : n / 16777216 mod 256 = n / 16777216).
    { apply Z.mod_small. split; [apply Z.div_pos; lia|apply Z.div_lt_upper_bound; lia]. }
    lia.
  - change (2 ^ (8 * Z.of_nat 0)) with 1. rewrite Z.div_1_r. reflexivity.
Qed.

Lemma four_bytes_value little n n' bs : four_bytes little n bs -> four_bytes little n' bs -> n = n'.
Proof.
  intros (a & b & c & d & _ & -> & E) (a' & b' & c' & d' & _ & -> & E'). rewrite E in E'.
  destruct little; injection E' as -> -> -> ->; reflexivity.
Qed.

(** ** Chunks *)
Lemma chunks_concat : forall fuel data, (length data <= fuel)%nat -> concat (chunks fuel data) = data.
Proof.
  induction fuel as [|fuel IH]; intros data Hf.
  - destruct data; [reflexivity|cbn in Hf; lia].
  - destruct data as [|x data]; [reflexivity|].
    change (chunks (S fuel) (x :: data)) with (firstn 1024 (x :: data) :: chunks fuel (skipn 1024 (x :: data))).
    cbn [concat]. rewrite IH; [apply firstn_skipn|]. rewrite skipn_length. cbn [length] in *. lia.
Qed.

Lemma yields_app a b : yields (a ++ b) = yields a ++ yields b. Proof. apply flat_map_app. Qed.
Lemma shows_app a b : shows (a ++ b) = shows a ++ shows b. Proof. apply flat_map_app. Qed.
Lemma yields_map l : yields (map Yield l) = l.
Proof. induction l as [|x l IH]; [reflexivity|]. cbn [map]. unfold yields in *. cbn [flat_map app]. now rewrite IH. Qed.
Lemma shows_map l : shows (map Yield l) = [].
Proof. induction l as [|x l IH]; [reflexivity|]. exact IH. Qed.

Lemma reading nbytes : nbytes <> 0 -> forall cs count,
  yields (bytes_of_chunks nbytes count cs) = concat cs /\ quiet (bytes_of_chunks nbytes count cs).
Proof.
  intros Hn. induction cs as [|c cs IH]; intros count; cbn [bytes_of_chunks concat].
  - split; [reflexivity|constructor].
  - destruct (Z.eqb_spec nbytes 0); [easy|]. destruct (IH (count + Z.of_nat (length c))) as [Y Q].
    rewrite yields_app, yields_map. cbn [yields flat_map app]. fold (yields (bytes_of_chunks nbytes (count + Z.of_nat (length c)) cs)).
    rewrite Y. split; [reflexivity|]. apply Forall_app. split; [apply Forall_forall; intros e He; apply in_map_iff in He as (? & <- & _); exact I|].
    constructor; [exact I|exact Q].
Qed.

(** ** Bars *)
Lemma int_frac k d n : 0 <= k -> 0 <= d -> 0 < n -> py_int (IZR d / IZR n * IZR k) = k * d / n.
Proof.
  intros Hk Hd Hn. assert (HR : (0 < IZR n)%R) by now apply IZR_lt.
  assert (E : (IZR d / IZR n * IZR k = IZR (k * d) / IZR n)%R) by (rewrite mult_IZR; field; lra). rewrite E.
  pose proof (Z.div_mod (k * d) n ltac:(lia)) as H. pose proof (Z.mod_pos_bound (k * d) n Hn) as Hm.
  set (q := k * d / n) in *. set (r := k * d mod n) in *.
  assert (0 <= q) by (apply Z.div_pos; nia).
  unfold py_int. destruct (Rle_dec 0 (IZR (k * d) / IZR n)) as [_|C].
  - apply Int_part_spec. rewrite H, plus_IZR, mult_IZR.
    replace ((IZR n * IZR q + IZR r) / IZR n)%R with (IZR q + IZR r / IZR n)%R by (field; lra).
    assert (0 <= IZR r / IZR n < 1)%R; [|lra].
    assert (0 <= IZR r)%R by (apply IZR_le; lia). assert (IZR r < IZR n)%R by (apply IZR_lt; lia). split.
    + apply Rmult_le_pos; [assumption|]. left. now apply Rinv_0_lt_compat.
    + apply (Rmult_lt_reg_r (IZR n)); [assumption|]. unfold Rdiv. rewrite Rmult_assoc, Rinv_l by lra. lra.
  - exfalso. apply C. apply Rmult_le_pos; [apply IZR_le; nia|]. left. now apply Rinv_0_lt_compat.
Qed.

Lemma bar_text d n : 0 <= d <= n -> 0 < n -> progress_bar (IZR d / IZR n) = bar (60 * d / n) (100 * d / n).
Proof.
  intros Hd Hn. unfold progress_bar, bar. rewrite !int_frac by lia.
  assert (0 <= 60 * d / n <= 60).
  { split; [apply Z.div_pos; lia|]. apply Z.div_le_upper_bound; lia. }
  cbn [lit app]. destruct (Z.ltb_spec (60 * d / n) 60) as [L|L].
  - replace (60 - 60 * d / n - 1) with (59 - 60 * d / n) by lia. reflexivity.
  - replace (60 * d / n) with 60 by lia. reflexivity.
Qed.
