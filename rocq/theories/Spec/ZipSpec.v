(** What is said about z.py. *)
From Verif Require Export Model.Zip Spec.ACSpec Spec.FMNSpec.
Open Scope Z_scope.

(** The bits of a file, least significant bit of each byte first. *)
Definition bits_of_file (data : list Z) : list Z :=
  flat_map (fun b => [b mod 2; b / 2 mod 2; b / 4 mod 2; b / 8 mod 2; b / 16 mod 2; b / 32 mod 2; b / 64 mod 2; b / 128 mod 2]) data.

(** The bytes hold these bits, most significant bit of each byte first, the last byte filled up with zeros. *)
Definition holds (bits bytes : list Z) : Prop :=
  Forall is_byte bytes /\ exists k, (k < 8)%nat /\
  bits ++ repeat 0 k = flat_map (fun b => [b / 128 mod 2; b / 64 mod 2; b / 32 mod 2; b / 16 mod 2; b / 8 mod 2; b / 4 mod 2; b / 2 mod 2; b mod 2]) bytes.

(** Four bytes that are a number, in the given byte order. *)
Definition four_bytes (little : bool) (n : Z) (bs : list Z) : Prop :=
  exists a b c d, Forall is_byte [a; b; c; d] /\ n = a + 256 * b + 256 * 256 * c + 256 * 256 * 256 * d /\
    bs = if little then [a; b; c; d] else [d; c; b; a].

(** The models that can be used. *)
Inductive used : pystr -> forall S, model S -> S -> Prop :=
| used_KT : used (lit "KT") kt KT_model (kt_init [0; 1])
| used_PTW : used (lit "PTW") _ (PTW_model KTB_model 0 ktb_init) (ptw_init 0 ktb_init)
| used_FMN s : fmn_init (LogStore_class ktb) 10 ktb_init = Ok s ->
    used (lit "FMN") _ (FMN_model KTB_model (LogStore_class ktb) 10) s.
Definition usable (name : pystr) : Prop := In name [lit "KT"; lit "PTW"; lit "FMN"].
Definition with_history (name : pystr) : Prop := In name [lit "CTW"; lit "FastCTW"; lit "CTW_KT"; lit "CTW_PTW"].
Definition common_history (name : pystr) : Prop := In name [lit "PTW_FastCTW"; lit "FMN_FastCTW"; lit "PTW_CTW"; lit "FMN_CTW"].

(** A number is given as depth. *)
Definition depth_ok (uni : pystr -> option Z) (args : z_args) : Prop := exists n, int_of_str uni (z_depth args) = Some n.

(** The bytes of a file have the arithmetic code [code] under the model of that name. *)
Definition coded (name : pystr) (data code : list Z) : Prop :=
  exists S (M : model S) m, used name S M m /\
    forall fuel, (32 < fuel)%nat -> compress (coder_of M) 32 fuel m (bits_of_file data) = Ok code.

(** Nothing but this file differs. *)
Definition only_file (p : pystr) (fs fs' : list (pystr * list Z)) : Prop :=
  forall q, q <> p -> gd_get streq fs' q = gd_get streq fs q.

(** What is printed. *)
Definition announcement (infile : pystr) (n : Z) : pystr :=
  lit "Compressing " ++ infile ++ lit " (" ++ str_of_int n ++ lit " bytes)" ++ [10; 10].
(** One bar with [n] of 60 parts done and [p] percent. *)
Definition bar (n p : Z) : pystr :=
  13 :: 91 :: (if n <? 60 then repeat 61 (Z.to_nat n) ++ 62 :: repeat 32 (Z.to_nat (59 - n)) else repeat 61 60) ++
  93 :: 32 :: 32 :: str_of_int p ++ [37].
(** The bars while [total] bytes are read: one after each 1024 bytes and one at the end. *)
Definition done_after (total i : Z) : Z := Z.min total (1024 * (i + 1)).
Definition bars (total : Z) : list pystr :=
  map (fun i => let d := done_after total (Z.of_nat i) in bar (60 * d / total) (100 * d / total))
      (seq 0 (Z.to_nat ((total + 1023) / 1024))).
Definition report (fmt : nat -> R -> pystr) (elapsed memory : R) (n_in n_out : Z) : list pystr :=
  (10 :: 10 :: lit "Compression statistics:" ++ [10]) ::
  z_stats (fmt 4%nat (IZR n_out / IZR n_in * 100)%R) (str_of_int n_out) (fmt 5%nat (IZR (8 * n_out) / IZR n_in)%R)
    (fmt 6%nat elapsed) (fmt 6%nat (IZR n_in / 1024 / elapsed)%R) None (fmt 4%nat (memory / 1000000)%R).

(** What the reader hands out, what it prints, and that it does not raise. *)
Definition yields (evs : list read_event) : list Z := flat_map (fun e => match e with Yield b => [b] | _ => [] end) evs.
Definition shows (evs : list read_event) : list pystr := flat_map (fun e => match e with Show t => [t] | _ => [] end) evs.
Definition quiet (evs : list read_event) : Prop := Forall (fun e => match e with Raise _ => False | _ => True end) evs.

