(** Python strings as lists of code points, and the string functions the models use. *)
From Coq Require Export String Ascii.
From Verif Require Export Model.Py.
Open Scope Z_scope.

Definition pystr := list Z.

(** a literal *)
Fixpoint lit (s : string) : pystr :=
  match s with
  | EmptyString => []
  | String a s' => Z.of_N (N_of_ascii a) :: lit s'
  end.

Definition underscore : Z := 95.
Definition dash : Z := 45.

(** [==] on strings *)
Fixpoint streq (s t : pystr) : bool :=
  match s, t with
  | [], [] => true
  | a :: s', b :: t' => (a =? b) && streq s' t'
  | _, _ => false
  end.

(** [<=] on strings: by code points *)
Fixpoint strle (s t : pystr) : bool :=
  match s, t with
  | [], _ => true
  | _ :: _, [] => false
  | a :: s', b :: t' => if a =? b then strle s' t' else a <? b
  end.

(** [s.split(c)] for a one-character separator: never empty *)
Fixpoint split (c : Z) (s : pystr) : list pystr :=
  match s with
  | [] => [[]]
  | a :: s' =>
      if a =? c then [] :: split c s'
      else match split c s' with
           | w :: ws => (a :: w) :: ws
           | [] => [[a]]
           end
  end.

(** [sep.join(l)] *)
Fixpoint join (sep : pystr) (l : list pystr) : pystr :=
  match l with
  | [] => []
  | [w] => w
  | w :: l' => w ++ sep ++ join sep l'
  end.

(** [c in s] for one character *)
Definition has_char (c : Z) (s : pystr) : bool := existsb (Z.eqb c) s.

Definition is_digit (c : Z) : bool := (48 <=? c) && (c <=? 57).
(** the ASCII characters that [int] ignores at both ends *)
Definition is_space (c : Z) : bool := ((9 <=? c) && (c <=? 13)) || ((28 <=? c) && (c <=? 32)).

Fixpoint lstrip (s : pystr) : pystr :=
  match s with
  | a :: s' => if is_space a then lstrip s' else s
  | [] => []
  end.
Definition strip (s : pystr) : pystr := rev (lstrip (rev (lstrip s))).

(** the value of a string of digits *)
Definition digits_value (s : pystr) : Z := fold_left (fun n c => 10 * n + (c - 48)) s 0.

Definition parse_nat (s : pystr) : option Z :=
  match s with
  | [] => None
  | _ => if forallb is_digit s then Some (digits_value s) else None
  end.

Section int.
  (** What [int] makes of a string with characters outside ASCII (some are digits). *)
  Variable uni : pystr -> option Z.

  (** [int(s)]; [None] is ValueError. Digit groups separated by underscores (newer Pythons) are
      not accepted. *)
  Definition int_of_str (s : pystr) : option Z :=
    if forallb (fun c => (0 <=? c) && (c <? 128)) s then
      match strip s with
      | 45 :: t => match parse_nat t with Some n => Some (- n) | None => None end
      | 43 :: t => parse_nat t
      | t => parse_nat t
      end
    else uni s.
End int.

(** [str(n)] *)
Fixpoint digits_of (fuel : nat) (n : Z) (acc : pystr) : pystr :=
  match fuel with
  | O => acc
  | S fuel' =>
      let acc := (48 + n mod 10) :: acc in
      if n <? 10 then acc else digits_of fuel' (n / 10) acc
  end.
Definition str_of_nat (n : Z) : pystr := digits_of (S (Z.to_nat (Z.log2 n))) n [].
Definition str_of_int (n : Z) : pystr :=
  if n <? 0 then dash :: str_of_nat (- n) else str_of_nat n.
