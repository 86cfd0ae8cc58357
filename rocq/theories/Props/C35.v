(** C35: the encoder always makes progress. *)
From Coq Require Import Lra.
From Verif Require Import Model.CtwPTW Spec.ACSpec Proofs.ACLength Proofs.ACKT Proofs.ACTop Proofs.ACCoin Proofs.ACLossless.
Open Scope Z_scope.

(** From any working interval, for any symbol whose probability is at most one, [encode]
    returns after at most num_bits output bits with a working interval again. *)
Theorem C35_encode_progress : forall S (M : model S) N fuel s b m' l,
  (2 <= N)%nat -> (N < fuel)%nat -> working N s -> en_follow s = 0%nat -> is_bit b ->
  m_update M (en_model s) b [] 1%R = Ok (m', l) -> (l <= 0)%R ->
  exists s' out, encode (coder_of M) N fuel s b = Ok (s', out) /\
    working N s' /\ en_follow s' = 0%nat /\ en_model s' = m' /\ Forall is_bit out /\ (length out <= N)%nat.
Proof. exact @encode_progress. Qed.
Print Assumptions C35_encode_progress.

(** A new encoder has a working interval. *)
Theorem C35_start : forall S (m : S) N, (2 <= N)%nat ->
  working N (enc_init N m) /\ en_follow (enc_init N m) = 0%nat.
Proof. exact @init_working. Qed.
Print Assumptions C35_start.

(** So every message has a code, if the probabilities of the two bits sum to one. *)
Theorem C35_compress_total : forall S (M : model S) Inv N m bits, (2 <= N)%nat -> coherent M Inv ->
  Inv m -> Forall is_bit bits ->
  exists code, Forall is_bit code /\ forall fuel', (N < fuel')%nat -> compress (coder_of M) N fuel' m bits = Ok code.
Proof. exact @compress_total. Qed.
Print Assumptions C35_compress_total.

Example C35_total_ex : coherent Coin (fun _ => True).
Proof.
  intros [] _. exists tt, (ln (/ 2)), tt, (ln (/ 2)). repeat split. rewrite exp_ln by lra. lra.
Qed.

(** A one that is left no part of the interval (the zero symbol was given all of it) is never
    encoded: the loop does not end. *)
Theorem C35_no_room_never_ends : forall S (C : coder_model S) N fuel s b m',
  (2 <= N)%nat -> b <> 0 ->
  cm_enc C (en_model s) b (en_high s - en_low s) = Ok (m', en_high s - en_low s) ->
  encode C N fuel s b = Err OutOfFuel.
Proof. exact @encode_empty. Qed.
Print Assumptions C35_no_room_never_ends.

(** A coin coded with 32 bits, in the middle of a message. *)
Example C35_ex : let s := Enc tt (2 ^ 31 - 5) (2 ^ 31 + 7) 0 in
  working 32 s /\ m_update Coin (en_model s) 1 [] 1%R = Ok (tt, ln (/ 2)) /\ (ln (/ 2) <= 0)%R.
Proof.
  cbn zeta. split; [split; vm_compute; intuition discriminate|]. split; [reflexivity|].
  rewrite <- ln_1. left. apply ln_increasing; lra.
Qed.

Example C35_ex_no_room :
  cm_enc (CoderModel (fun s _ r => Ok (s, r)) (fun _ r => Ok r) (fun s _ => Ok s)) tt 1 12 = Ok (tt, 12).
Proof. reflexivity. Qed.
