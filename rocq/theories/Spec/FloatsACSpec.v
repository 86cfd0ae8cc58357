(** What is said about the arithmetic coder when floats round. *)
From Verif Require Export Spec.ACSpec Spec.FloatsSpec Model.FloatsAC.
Open Scope R_scope.

(** Rounding to the nearest number with [p] binary digits behind the leading one, to the even one of
    two that are equally near. Exponents are not limited. *)
Definition to_even (y : R) : Z :=
  let f := (up y - 1)%Z in
  if Rlt_dec (y - IZR f) (/ 2) then f
  else if Rlt_dec (/ 2) (y - IZR f) then (f + 1)%Z
  else if Z.even f then f else (f + 1)%Z.
Definition nearest (p : Z) (x : R) : R :=
  if Req_EM_T x 0 then 0 else let s := powerRZ 2 (expo x - p) in s * IZR (to_even (x / s)).

(** An arithmetic in which nothing but the exponential is rounded, and that to the nearest number. With
    [p] = 52 it is closer to the real numbers than binary64 with any mathematical library. *)
Definition rounded_exp (p : Z) : floats := Floats Rplus Rminus Rdiv (fun x => nearest p (exp x)) ln.

Open Scope Z_scope.

(** The encoder splits its interval somewhere inside it, for every symbol of [bits]. *)
Fixpoint splits_inside {S} (C : coder_model S) (N fuel : nat) (s : enc) (bits : list Z) : Prop :=
  match bits with
  | [] => True
  | b :: bits' =>
      is_bit b /\
      exists m' cut, cm_enc C (en_model s) b (en_high s - en_low s) = Ok (m', cut) /\
        0 <= cut <= en_high s - en_low s /\
        forall s' out, encode C N fuel s b = Ok (s', out) -> splits_inside C N fuel s' bits'
  end.

(** The decoder, too, and at the same place. *)
Fixpoint splits_agree {S} (C : coder_model S) (N fuel : nat) (s : enc) (bits : list Z) : Prop :=
  match bits with
  | [] => True
  | b :: bits' =>
      is_bit b /\
      exists m' cut, cm_enc C (en_model s) b (en_high s - en_low s) = Ok (m', cut) /\
        cm_dec C (en_model s) (en_high s - en_low s) = Ok cut /\
        cm_upd C (en_model s) b = Ok m' /\ 0 <= cut <= en_high s - en_low s /\
        forall s' out, encode C N fuel s b = Ok (s', out) -> splits_agree C N fuel s' bits'
  end.

(** From states in [Inv], taking the probability computed for 1 from 1 gives what is computed for 0, to
    the last digit. *)
Definition complements {S} (F : floats) (M : model S) (Inv : S -> Prop) : Prop :=
  forall s, Inv s -> exists s0 l0 s1 l1,
    m_update M s 0 [] 1%R = Ok (s0, l0) /\ m_update M s 1 [] 1%R = Ok (s1, l1) /\
    m_logp M s 0 [] = Ok l0 /\ Inv s0 /\ Inv s1 /\ f_sub F 1%R (f_exp F l1) = f_exp F l0.

(** Whenever a symbol of [bits] is coded, the zero symbol gets at least one unit of the interval. *)
Fixpoint leaves_room {S} (F : floats) (mul : R -> R -> R) (M : model S) (N fuel : nat) (s : enc) (bits : list Z) : Prop :=
  match bits with
  | [] => True
  | b :: bits' =>
      (forall l, m_logp M (en_model s) 0 [] = Ok l ->
        (1 <= mul (IZR (en_high s - en_low s)) (f_exp F l) <= IZR (en_high s - en_low s))%R) /\
      forall s' out, encode (fp_coder_of F mul M) N fuel s b = Ok (s', out) -> leaves_room F mul M N fuel s' bits'
  end.

(** The message 0 1 0 1 ... of 2 [n] bits *)
Definition alternating (n : nat) : list Z := concat (repeat [0; 1] n).
