(** C103: the arithmetic coder when floats round. The encoder works with 1 - exp(update(1)) where the
    decoder works with exp(log_predict(0)).
    That decompress inverts compress is false: [C103_rounding_refuted]. It is true as long as both
    compute the same split. *)
From Coq Require Import Lra.
From Verif Require Import Model.CtwPTW Spec.FloatsACSpec Proofs.FloatsACFacts Proofs.ACCoin Proofs.ACFacts.
Open Scope Z_scope.

(** Rounding nothing but the exponential, and that to the nearest number with 53 digits, KT returns
    0 1 ... 0 1 0 0 for the 34 bits 0 1 ... 0 1 0 1. With exact arithmetic it returns the message. *)
Theorem C103_rounding_refuted : exists code code' r,
  accurate (rounded_exp 52) (powerRZ 2 (- 53)) 2000 (Z.to_nat (2 ^ 53)) /\
  compress (fp_coder_of (rounded_exp 52) Rmult (q_model QKT_class)) 32 40 (qkt_init [0; 1]) (alternating 17) = Ok code /\
  decompress (fp_coder_of (rounded_exp 52) Rmult (q_model QKT_class)) 32 40 40 (qkt_init [0; 1]) code 34 = Ok r /\
  r = alternating 16 ++ [0; 0] /\
  compress (coder_of (q_model QKT_class)) 32 40 (qkt_init [0; 1]) (alternating 17) = Ok code' /\
  decompress (coder_of (q_model QKT_class)) 32 40 40 (qkt_init [0; 1]) code' 34 = Ok (alternating 17).
Proof. exact rounding_refutes. Qed.
Print Assumptions C103_rounding_refuted.

(** What is decoded begins with the part of the message on which encoder and decoder split alike,
    whatever the arithmetic and whatever becomes of the rest. *)
Theorem C103_until_splits_differ : forall S (C : coder_model S) N fuel m pre post code, (3 <= N)%nat ->
  splits_agree C N fuel (enc_init N m) pre -> splits_inside C N fuel (enc_init N m) (pre ++ post) ->
  compress C N fuel m (pre ++ post) = Ok code ->
  forall rounds fuel' r, decompress C N rounds fuel' m code (Z.of_nat (length (pre ++ post))) = Ok r ->
    exists rest, r = pre ++ rest.
Proof. exact @any_part. Qed.
Print Assumptions C103_until_splits_differ.

(** In the example above these are the first five symbols. *)
Example C103_until_splits_differ_ex : let bits := alternating 17 in
  splits_agree (fp_coder_of (rounded_exp 52) Rmult (q_model QKT_class)) 32 40 (enc_init 32 (qkt_init [0; 1])) (firstn 5 bits) /\
  splits_inside (fp_coder_of (rounded_exp 52) Rmult (q_model QKT_class)) 32 40 (enc_init 32 (qkt_init [0; 1])) bits.
Proof. exact kt_part_example. Qed.

(** If they split alike for all of it, nothing but the message is returned. *)
Theorem C103_same_splits_safe : forall S (C : coder_model S) N fuel m bits code, (3 <= N)%nat ->
  splits_agree C N fuel (enc_init N m) bits -> compress C N fuel m bits = Ok code ->
  forall rounds fuel' r, decompress C N rounds fuel' m code (Z.of_nat (length bits)) = Ok r -> r = bits.
Proof. exact @any_safe. Qed.
Print Assumptions C103_same_splits_safe.

(** It is returned when the last symbol puts out a code bit. *)
Theorem C103_same_splits_last : forall S (C : coder_model S) N fuel m bits code, (3 <= N)%nat -> bits <> [] ->
  splits_agree C N fuel (enc_init N m) bits -> compress C N fuel m bits = Ok code ->
  (before_last C N fuel (enc_init N m) bits + 2 < length code)%nat ->
  forall rounds fuel', (N <= rounds)%nat -> (length bits < fuel')%nat ->
    decompress C N rounds fuel' m code (Z.of_nat (length bits)) = Ok bits.
Proof. exact @any_last. Qed.
Print Assumptions C103_same_splits_last.

(** They split alike if the probabilities the model computes for 0 and for 1 are complements to the last
    digit. *)
Theorem C103_complements_safe : forall S F mul (M : model S) Inv N fuel m bits code, (3 <= N)%nat ->
  complements F M Inv -> Inv m -> Forall is_bit bits -> leaves_room F mul M N fuel (enc_init N m) bits ->
  compress (fp_coder_of F mul M) N fuel m bits = Ok code ->
  forall rounds fuel' r, decompress (fp_coder_of F mul M) N rounds fuel' m code (Z.of_nat (length bits)) = Ok r -> r = bits.
Proof. exact @complement_safe. Qed.
Print Assumptions C103_complements_safe.

(** The probabilities of a coin are, and then any message will do. *)
Example C103_complements_safe_ex : complements (rounded_exp 52) Coin (fun _ => True) /\
  forall bits, Forall is_bit bits -> leaves_room (rounded_exp 52) Rmult Coin 32 40 (enc_init 32 tt) bits.
Proof. split; [exact coin_complements|]. intros bits Hb. apply coin_room; [exact Hb|]. apply enc_init_ok. repeat constructor. Qed.
