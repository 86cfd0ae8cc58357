(** C37: the byte-level round trip. The property is false of the program: bytes are unpacked
    least significant bit first and packed most significant bit first, on both sides. *)
From Verif Require Import Model.CtwPTW Spec.ACSpec Proofs.ACKT Proofs.ACBytes.
Open Scope Z_scope.

(** With KT, the byte 1 is compressed to the byte 129, and that is decompressed to the byte 128. *)
Theorem C37_byte_round_trip_refuted : exists data code,
  Forall is_byte data /\
  compress_bytes QKT_coder 32 40 (qkt_init [0; 1]) data = Ok code /\
  decompress_bytes QKT_coder 32 40 400 (qkt_init [0; 1]) code (Z.of_nat (length data)) = Ok [128] /\
  forall rounds fuel,
    decompress_bytes QKT_coder 32 rounds fuel (qkt_init [0; 1]) code (Z.of_nat (length data)) <> Ok data.
Proof.
  exists [1], [129]. split; [repeat constructor; easy|]. exact qkt_byte_wrong.
Qed.
Print Assumptions C37_byte_round_trip_refuted.

(** The cause: packing what was unpacked reverses the bits of every byte. *)
Theorem C37_pack_unpack : forall bytes, pack (unpack bytes) = map byte_reversed bytes.
Proof. exact pack_unpack. Qed.
Print Assumptions C37_pack_unpack.

Theorem C37_reversed_twice : forall x, is_byte x ->
  is_byte (byte_reversed x) /\ byte_reversed (byte_reversed x) = x.
Proof. exact byte_reversed_twice. Qed.
Print Assumptions C37_reversed_twice.

(** So even where the bit-level coder returns the message, its bytes come back reversed. *)
Theorem C37_bytes_reversed : forall S (C : coder_model S) N rounds fuel m cbytes data r,
  decompress C N rounds fuel m (unpack cbytes) (Z.of_nat (length (unpack data))) = Ok (unpack data) ->
  decompress_bytes C N rounds fuel m cbytes (Z.of_nat (length data)) = Ok r ->
  r = map byte_reversed data.
Proof. exact @bytes_reversed. Qed.
Print Assumptions C37_bytes_reversed.

Example C37_ex : map byte_reversed [1; 129; 6; 255] = [128; 129; 96; 255] /\
  decompress KTI 32 40 400 (1, 1) (unpack [0; 0]) (Z.of_nat (length (unpack [0]))) = Ok (unpack [0]).
Proof. split; vm_compute; reflexivity. Qed.
