(** C74: log files as a user describes them. *)
From Verif Require Export Model.LogData.
Open Scope Z_scope.

(** a line of a text file, with its line end *)
Definition is_line (l : pystr) : Prop :=
  exists body, l = body ++ [10] /\ ~ In 10 body /\ ~ In 13 body.

(** a text without line ends *)
Definition one_line (s : pystr) : Prop := ~ In 10 s /\ ~ In 13 s.

Section spec.
  Variable uspace : Z -> bool.

  Definition blank (s : pystr) : Prop := forall c, In c s -> space uspace c = true.
  Definition wordy (s : pystr) : Prop := s <> [] /\ forall c, In c s -> space uspace c = false.

  (** [reads ws l]: the words of the line [l], separated by white space, are [ws] *)
  Inductive reads : list pystr -> pystr -> Prop :=
  | reads_none g : blank g -> reads [] g
  | reads_last g w : blank g -> wordy w -> reads [w] (g ++ w)
  | reads_more g w c rest ws : blank g -> wordy w -> space uspace c = true -> reads ws (c :: rest) ->
      reads (w :: ws) (g ++ w ++ c :: rest).

  (** [trims s t]: [t] is [s] without the white space at both ends *)
  Definition trims (s t : pystr) : Prop :=
    (exists g h, blank g /\ blank h /\ s = g ++ t ++ h) /\
    match t with [] => True | c :: _ => space uspace c = false /\ space uspace (last t 0) = false end.

  (** A log file: comment lines with their texts, the line of headers, the rows. *)
  Definition log_file (text : pystr) (comments headers : list pystr) (rows : list (list pystr)) : Prop :=
    exists (lines cl : list pystr) hl rl, lines = cl ++ hl :: rl /\ text = concat lines /\ Forall is_line lines /\
      Forall2 (fun l c => exists l', l = 35 :: l' /\ trims (skipn 2 l) c) cl comments /\
      (forall l', hl <> 35 :: l') /\ headers <> [] /\ reads headers hl /\ Forall2 reads rows rl.

  (** No two columns whose names differ only in characters that file names do not have. *)
  Definition no_clash (headers : list pystr) : Prop :=
    forall h k, In h headers -> In k headers -> uclean h = k -> h = k.

  Context {F : Type} (float_of : pystr -> option F).

  (** What a column of texts is turned into: numbers if all of them are, else it stays as it is. *)
  Definition reads_column (texts : list pystr) (c : column) : Prop :=
    match c with
    | CNum l => Forall2 (fun t f => float_of t = Some f) texts l
    | CText l => l = texts /\ exists t, In t texts /\ float_of t = None
    end.

  Context {V : Type} (str : V -> pystr).

  (** [k] is the first of the keys in the order of strings *)
  Definition least (k : pystr) (keys : list pystr) : Prop :=
    In k keys /\ forall k', In k' keys -> strle k k' = true.

  (** Data that can be written as a log with [n] rows: [n] is the length of the first column, no
      column is shorter, names and values are single words. *)
  Record savable (p : pystr) (data : list (pystr * list V)) (notes : list pystr) (n : nat) : Prop := {
    sv_path : one_line p;
    sv_notes : Forall (fun s => s <> [] /\ one_line s) notes;
    sv_keys : NoDup (map fst data);
    sv_names : Forall wordy (map fst data);
    sv_first : exists k col, least k (map fst data) /\ (forall s, k <> 35 :: s) /\ In (k, col) data /\ length col = n;
    sv_long : Forall (fun kc => (n <= length (snd kc))%nat) data;
    sv_words : Forall (fun kc => Forall (fun v => wordy (str v)) (firstn n (snd kc))) data
  }.

  (** the columns asked for; without a list, all of them in order *)
  Definition wanted (sub : option (list pystr)) (data : list (pystr * list V)) : list pystr :=
    match sub with Some l => l | None => sort strle (map fst data) end.

  (** The comment that a note comes back as: text after a leading "#" is taken from the third
      character on. *)
  Definition note_back (n c : pystr) : Prop :=
    match n with
    | 35 :: _ => trims (skipn 2 n) c
    | _ => trims n c
    end.
End spec.
