(** The functions of Python's posixpath that datasets.py uses (os.path on POSIX systems). The
    standard library is not part of /repo; these follow its documentation and source. *)
From Verif Require Export Model.PyStr.
Open Scope Z_scope.

Definition slash : Z := 47.
Definition dot : Z := 46.

(** [s.startswith(c)] and [s.endswith(c)] for one character *)
Definition starts_with (c : Z) (s : pystr) : bool :=
  match s with a :: _ => a =? c | [] => false end.
Definition ends_with (c : Z) (s : pystr) : bool := starts_with c (rev s).

(** [os.path.join(a, b)] *)
Definition path_join2 (a b : pystr) : pystr :=
  if starts_with slash b then b
  else match a with
       | [] => b
       | _ => if ends_with slash a then a ++ b else a ++ [slash] ++ b
       end.

(** [os.path.join(a, *rest)] *)
Definition path_join (a : pystr) (rest : list pystr) : pystr := fold_left path_join2 rest a.

(** the text up to and with the last [c], and the text after it *)
Fixpoint cut_last (c : Z) (s : pystr) : pystr * pystr :=
  match s with
  | [] => ([], [])
  | a :: s' =>
      let '(h, t) := cut_last c s' in
      match h with
      | [] => if a =? c then ([a], t) else ([], a :: t)
      | _ => (a :: h, t)
      end
  end.

(** [s.rstrip(c)] *)
Fixpoint lstrip_char (c : Z) (s : pystr) : pystr :=
  match s with
  | a :: s' => if a =? c then lstrip_char c s' else s
  | [] => []
  end.
Definition rstrip_char (c : Z) (s : pystr) : pystr := rev (lstrip_char c (rev s)).

(** [os.path.split(p)]; [os.path.dirname(p)] is the first part *)
Definition path_split (p : pystr) : pystr * pystr :=
  let '(h, t) := cut_last slash p in
  (if forallb (Z.eqb slash) h then h else rstrip_char slash h, t).

(** the loop of [os.path.normpath] over the components; [acc] is reversed *)
Fixpoint norm_comps (rooted : bool) (acc comps : list pystr) : list pystr :=
  match comps with
  | [] => rev acc
  | c :: cs =>
      if streq c [] || streq c [dot] then norm_comps rooted acc cs
      else if negb (streq c [dot; dot]) then norm_comps rooted (c :: acc) cs
      else match acc with
           | [] => if rooted then norm_comps rooted acc cs else norm_comps rooted (c :: acc) cs
           | a :: acc' => if streq a [dot; dot] then norm_comps rooted (c :: acc) cs
                          else norm_comps rooted acc' cs
           end
  end.

(** [os.path.normpath(p)]. Two leading slashes, which POSIX lets stand, are kept. *)
Definition normpath (p : pystr) : pystr :=
  match p with
  | [] => [dot]
  | _ =>
      let slashes := match p with
                     | a :: b :: c :: _ => if a =? slash then (if (b =? slash) && negb (c =? slash) then 2%nat else 1%nat) else 0%nat
                     | [a; b] => if a =? slash then (if b =? slash then 2%nat else 1%nat) else 0%nat
                     | [a] => if a =? slash then 1%nat else 0%nat
                     | [] => 0%nat
                     end in
      let comps := norm_comps (negb (Nat.eqb slashes 0)) [] (split slash p) in
      match repeat slash slashes ++ join [slash] comps with
      | [] => [dot]
      | q => q
      end
  end.

(** the extension in [os.path.splitext(p)]: from the last dot of the last component, unless only
    dots come before it *)
Definition path_ext (p : pystr) : pystr :=
  let name := snd (cut_last slash p) in
  let '(h, t) := cut_last dot name in
  match h with
  | [] => []
  | _ => if forallb (Z.eqb dot) h then [] else dot :: t
  end.

(** [needle in s] *)
Fixpoint is_prefix (s t : pystr) : bool :=
  match s, t with
  | [], _ => true
  | a :: s', b :: t' => (a =? b) && is_prefix s' t'
  | _, _ => false
  end.
Fixpoint contains (needle s : pystr) : bool :=
  is_prefix needle s || match s with [] => false | _ :: s' => contains needle s' end.
