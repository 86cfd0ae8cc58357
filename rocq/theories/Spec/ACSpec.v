(** What is said about the arithmetic coder. *)
From Verif Require Export Model.AC Spec.Prob.
Open Scope Z_scope.

(** The working interval between two symbols: non-empty, inside [0, 2^num_bits), with the
    midpoint in its interior. *)
Definition working {S} (N : nat) (s : @enc S) : Prop :=
  0 <= en_low s < 2 ^ Z.of_nat (N - 1) /\ 2 ^ Z.of_nat (N - 1) < en_high s <= 2 ^ Z.of_nat N.

(** The quantised probabilities used for [bits]: for every symbol the share of the working
    interval it is given. *)
Fixpoint quantised {S} (C : coder_model S) (N fuel : nat) (s : enc) (bits : list Z) : list R :=
  match bits with
  | [] => []
  | b :: bits' =>
      match cm_enc C (en_model s) b (en_high s - en_low s), encode C N fuel s b with
      | Ok (_, cut), Ok (s', _) =>
          (IZR (if b =? 0 then cut else en_high s - en_low s - cut) / IZR (en_high s - en_low s))%R
            :: quantised C N fuel s' bits'
      | _, _ => []
      end
  end.

(** The model's own probabilities of the same symbols, and the sizes of the intervals. *)
Fixpoint ideal {S} (M : model S) (N fuel : nat) (s : enc) (bits : list Z) : list (R * Z) :=
  match bits with
  | [] => []
  | b :: bits' =>
      match encode (coder_of M) N fuel s b with
      | Ok (s', _) => (pred_prob M (en_model s) b [], en_high s - en_low s) :: ideal M N fuel s' bits'
      | _ => []
      end
  end.

(** Precision: whenever a symbol of [bits] is coded the working interval is long enough for the
    zero symbol to get at least one unit of it. *)
Fixpoint precise {S} (M : model S) (N fuel : nat) (s : enc) (bits : list Z) : Prop :=
  match bits with
  | [] => True
  | b :: bits' =>
      (1 <= IZR (en_high s - en_low s) * pred_prob M (en_model s) 0 [])%R /\
      forall s' out, encode (coder_of M) N fuel s b = Ok (s', out) -> precise M N fuel s' bits'
  end.

Definition is_bit (b : Z) : Prop := b = 0 \/ b = 1.

(** The model never returns a probability above one (for bits, from states in [Inv]). *)
Definition at_most_one {S} (M : model S) (Inv : S -> Prop) : Prop :=
  forall s b s' l, Inv s -> is_bit b -> m_update M s b [] 1%R = Ok (s', l) -> (l <= 0)%R /\ Inv s'.

(** Base-2 log loss. *)
Definition log_loss (ps : list R) : R := Rsum (map (fun p => (- ln p / ln 2)%R) ps).

(** The number of code bits that are out before the last symbol is coded. *)
Fixpoint before_last {S} (C : coder_model S) (N fuel : nat) (s : enc) (bits : list Z) : nat :=
  match bits with
  | [] | [_] => 0
  | b :: bits' =>
      match encode C N fuel s b with
      | Ok (s', out) => length out + before_last C N fuel s' bits'
      | Err _ => 0
      end
  end.

(** A byte read backwards. *)
Definition byte_reversed (x : Z) : Z :=
  fold_left (fun acc i => acc * 2 + (x / 2 ^ Z.of_nat i) mod 2) (seq 0 8) 0.
Definition is_byte (x : Z) : Prop := 0 <= x < 256.

(** From states in [Inv], updating with a bit succeeds, and the probabilities returned for the two bits sum to one. *)
Definition coherent {S} (M : model S) (Inv : S -> Prop) : Prop :=
  forall s, Inv s -> exists s0 l0 s1 l1,
    m_update M s 0 [] 1%R = Ok (s0, l0) /\ m_update M s 1 [] 1%R = Ok (s1, l1) /\
    Inv s0 /\ Inv s1 /\ (exp l0 + exp l1 = 1)%R.

(** The same bits, but for zeros at the end. *)
Definition same_code (c c' : list Z) : Prop := exists k k', c ++ repeat 0 k = c' ++ repeat 0 k'.
