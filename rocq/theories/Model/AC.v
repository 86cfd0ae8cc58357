(** ac.py: binary arithmetic coding. *)
From Verif Require Export Model.Iface.
Open Scope Z_scope.

(** [int(x)]: truncation towards zero. *)
Definition py_int (x : R) : Z :=
  if Rle_dec 0 x then Int_part x else - Int_part (- x).

(** How the coders use their predictive model, as integers:
    [cm_enc s symbol range] is the model after [update(symbol)] and the size
    [max(1, int(range * p_zero))] of the zero part (ac.py:96-98);
    [cm_dec s range] is [int(range * predict(0))] (ac.py:189-190);
    [cm_upd s symbol] is the model after [update(symbol)] (ac.py:194). *)
Record coder_model (S : Type) := CoderModel {
  cm_enc : S -> Z -> Z -> result (S * Z);
  cm_dec : S -> Z -> result Z;
  cm_upd : S -> Z -> result S }.
Arguments CoderModel {S}.
Arguments cm_enc {S}.
Arguments cm_dec {S}.
Arguments cm_upd {S}.

(** The same with a model that is called without a history (ctw.py, learners.py, and those of
    model.py that ignore it). [predict(0)] is [exp(log_predict(0))]. *)
Definition coder_of {S} (M : model S) : coder_model S := CoderModel
  (fun s symbol range =>
     do (s', l) <- m_update M s symbol [] 1%R;
     let p_zero := if symbol =? 0 then exp l else (1 - exp l)%R in
     Ok (s', Z.max 1 (py_int (IZR range * p_zero))))
  (fun s range =>
     do l <- m_logp M s 0 [];
     Ok (py_int (IZR range * exp l)))
  (fun s symbol => do (s', _) <- m_update M s symbol [] 1%R; Ok s').

Section coder.
  Context {S : Type} (C : coder_model S).
  (** The parameter [num_bits] (32 in compress and decompress). *)
  Variable num_bits : nat.

  (** ac.py:74-76, 163-165 *)
  Definition top : Z := 2 ^ Z.of_nat num_bits.
  Definition half : Z := top / 2.
  Definition q1_4 : Z := half / 2.
  (** ac.py:77: [self._top - self._half] *)
  Definition enc_q3_4 : Z := top - half.
  (** ac.py:166 *)
  Definition dec_q3_4 : Z := top - q1_4.

  (** ** Encoder *)
  Record enc := Enc { en_model : S; en_low : Z; en_high : Z; en_follow : nat }.

  (** ac.py:70-81 *)
  Definition enc_init (m : S) : enc := Enc m 0 top 0.

  (** ac.py:125-144, the [while True] loop: (low, high, follow_bits, output). *)
  Fixpoint renorm (fuel : nat) (low high : Z) (follow : nat) : result (Z * Z * nat * list Z) :=
    match fuel with
    | O => Err OutOfFuel
    | Datatypes.S fuel' =>
        if high <=? half then
          do (l, h, f, out) <- renorm fuel' (low * 2) (high * 2) 0;
          Ok (l, h, f, 0 :: repeat 1 follow ++ out)
        else if low >=? half then
          do (l, h, f, out) <- renorm fuel' ((low - half) * 2) ((high - half) * 2) 0;
          Ok (l, h, f, 1 :: repeat 0 follow ++ out)
        else if (low >=? q1_4) && (high <=? enc_q3_4) then
          renorm fuel' ((low - q1_4) * 2) ((high - q1_4) * 2) (Datatypes.S follow)
        else Ok (low, high, follow, [])
    end.

  (** ac.py:83-146 *)
  Definition encode (fuel : nat) (s : enc) (symbol : Z) : result (enc * list Z) :=
    do (m', cut) <- cm_enc C (en_model s) symbol (en_high s - en_low s);
    let split := en_low s + cut in
    let '(low, high) := if symbol =? 0 then (en_low s, split) else (split, en_high s) in
    do (low', high', follow', out) <- renorm fuel low high (en_follow s);
    Ok (Enc m' low' high' follow', out).

  (** ac.py:148-157 *)
  Definition enc_flush (s : enc) : list Z :=
    if en_low s <? q1_4 then 0 :: repeat 1 (en_follow s + 1) else 1 :: repeat 0 (en_follow s + 1).

  (** The loop of compress (ac.py:22-23) *)
  Fixpoint encode_all (fuel : nat) (s : enc) (bits : list Z) : result (enc * list Z) :=
    match bits with
    | [] => Ok (s, [])
    | b :: bits' =>
        do (s', out) <- encode fuel s b;
        do (s'', out') <- encode_all fuel s' bits';
        Ok (s'', out ++ out')
    end.

  (** ac.py:16-25. The generator is run to its end. *)
  Definition compress (fuel : nat) (m : S) (bits : list Z) : result (list Z) :=
    do (s, out) <- encode_all fuel (enc_init m) bits;
    Ok (out ++ enc_flush s).

  (** ** Decoder *)
  Record dec := Dec { de_model : S; de_low : Z; de_high : Z; de_value : Z }.

  (** ac.py:160-169 *)
  Definition dec_init (m : S) : dec := Dec m 0 1 0.

  (** ac.py:188-199, the [while] loop *)
  Fixpoint decode_loop (fuel : nat) (m : S) (low high value : Z) : result (S * Z * Z * list Z) :=
    match fuel with
    | O => Err OutOfFuel
    | Datatypes.S fuel' =>
        if (low <? half) && (half <? high) then
          do cut <- cm_dec C m (high - low);
          let split := low + cut in
          let symbol := if value <? split then 0 else 1 in
          do m' <- cm_upd C m symbol;
          let '(low', high') := if symbol =? 0 then (low, split) else (split, high) in
          do (m'', l, h, out) <- decode_loop fuel' m' low' high' value;
          Ok (m'', l, h, symbol :: out)
        else Ok (m, low, high, [])
    end.

  (** ac.py:172-184: the rescaling step of decode. *)
  Definition dec_shift (low high value bit : Z) : Z * Z * Z :=
    let off := if low >=? half then half
               else if (low >=? q1_4) && (high <=? dec_q3_4) then q1_4 else 0 in
    ((low - off) * 2, (high - off) * 2, (value - off) * 2 + bit).

  (** ac.py:171-201 *)
  Definition decode (fuel : nat) (s : dec) (bit : Z) : result (dec * list Z) :=
    let '(low, high, value) := dec_shift (de_low s) (de_high s) (de_value s) bit in
    do (m', low', high', out) <- decode_loop fuel (de_model s) low high value;
    Ok (Dec m' low' high' value, out).

  (** The outputs of [decode] on every bit (ac.py:43: unpacking into [chain] calls them all first). *)
  Fixpoint decode_all (fuel : nat) (s : dec) (bits : list Z) : result (dec * list Z) :=
    match bits with
    | [] => Ok (s, [])
    | b :: bits' =>
        do (s', out) <- decode fuel s b;
        do (s'', out') <- decode_all fuel s' bits';
        Ok (s'', out ++ out')
    end.

  (** ac.py:205-206, the loop of flush: [output] so far. *)
  Fixpoint flush_loop (rounds fuel : nat) (s : dec) (nbits : Z) (output : list Z) : result (list Z) :=
    if Z.of_nat (length output) <? nbits then
      match rounds with
      | O => Err OutOfFuel
      | Datatypes.S rounds' =>
          do (s', out) <- decode fuel s 0;
          flush_loop rounds' fuel s' nbits (output ++ out)
      end
    else Ok output.

  (** ac.py:203-207 *)
  Definition dec_flush (rounds fuel : nat) (s : dec) (nbits : Z) : result (list Z) :=
    do output <- flush_loop rounds fuel s nbits [];
    Ok (slice_to output nbits).

  (** ac.py:36-47 *)
  Definition decompress (rounds fuel : nat) (m : S) (bits : list Z) (msglen : Z) : result (list Z) :=
    do (s, out) <- decode_all fuel (dec_init m) bits;
    do out' <- dec_flush rounds fuel s (msglen - Z.of_nat (length out));
    Ok (out ++ out').
End coder.
Arguments Enc {S}.
Arguments en_model {S}.
Arguments en_low {S}.
Arguments en_high {S}.
Arguments en_follow {S}.
Arguments Dec {S}.
Arguments de_model {S}.
Arguments de_low {S}.
Arguments de_high {S}.
Arguments de_value {S}.

(** ** Bytes *)
(** [(m >> i) & 1 for m in bytes for i in range(8)] (ac.py:31, 54) *)
Definition unpack (bytes : list Z) : list Z :=
  flat_map (fun m => map (fun i => Z.land (Z.shiftr m (Z.of_nat i)) 1) (seq 0 8)) bytes.

(** [int(''.join(byte), 2)]: the first digit is the most significant. *)
Definition of_digits (l : list Z) : Z := fold_left (fun acc b => acc * 2 + b) l 0.

(** ac.py:12-14 with n=8, fillvalue='0', and the conversion of each group (ac.py:33, 56).
    [fuel] is the number of groups at most. *)
Fixpoint pack_from (fuel : nat) (bits : list Z) : list Z :=
  match fuel, bits with
  | O, _ | _, [] => []
  | Datatypes.S fuel', _ =>
      let g := firstn 8 bits in
      of_digits (g ++ repeat 0 (8 - length g)) :: pack_from fuel' (skipn 8 bits)
  end.
Definition pack (bits : list Z) : list Z := pack_from (length bits) bits.

(** ac.py:27-34 *)
Definition compress_bytes {S} (C : coder_model S) (num_bits fuel : nat) (m : S) (bytes : list Z)
  : result (list Z) :=
  do cbits <- compress C num_bits fuel m (unpack bytes);
  Ok (pack cbits).

(** ac.py:49-57 *)
Definition decompress_bytes {S} (C : coder_model S) (num_bits rounds fuel : nat) (m : S)
  (bytes : list Z) (msglen : Z) : result (list Z) :=
  do bits <- decompress C num_bits rounds fuel m (unpack bytes) (msglen * 8);
  Ok (pack bits).
