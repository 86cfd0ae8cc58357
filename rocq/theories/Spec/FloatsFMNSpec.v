(** Notions for the rounding errors of FMN. *)
From Verif Require Export Spec.FloatsAvgSpec Spec.FMNSpec Spec.SeqSpec Model.FloatsFMN.
Open Scope R_scope.

(** A model computed with rounding, [M1], follows the exact one, [M2], for [N] steps: each value returned
    differs by at most [eps], and the exact value lies between -L and 0. [close n x y]: the states after
    [n] steps. *)
Record steady {S1 S2} (M1 : model S1) (M2 : model S2) (fresh1 : S1) (fresh2 : S2) (A : list Z) (okh : list Z -> Prop)
  (N : nat) (eps L : R) (close : nat -> S1 -> S2 -> Prop) : Prop := Steady {
  sd_new : close 0%nat fresh1 fresh2;
  sd_step : forall n x y a h, close n x y -> (S n <= N)%nat -> In a A -> okh h ->
    exists x' y' lx ly, m_update M1 x a h 1 = Ok (x', lx) /\ m_update M2 y a h 1 = Ok (y', ly) /\
      Rabs (lx - ly) <= eps /\ - L <= ly <= 0 /\ close (S n) x' y' }.

(** The models retained by an FMN with rounding, started in [s0], after the first [b] events. *)
Definition fretained {S T} F (M : model S) (C : store_class (S := S) T) (m : nat) (s0 : fmn) (evs : list event) (b : nat) : list S :=
  match run (FFMN_model F M C m) s0 (firstn b evs) with
  | Ok (s, _) => st_iter C (fm_models s)
  | Err _ => []
  end.

(** How far the value of one step of PTW, over averages of at most [d] such models, may be off. *)
Definition fmn_loss (u : R) (n d : nat) (L eps : R) : R := ptw_loss u n L 0 (avg_eps u n d L 0 eps).

(** FMN with rounding runs through [seq] and returns some [r]; for every partition of time whose segments start at
    [fst sg], and every choice of a model retained at that time to predict the segment, -r is at most the loss of the
    chosen models, ln of the number of models retained, the cost of the partition, and [slack]. *)
Definition fcompetes {S T} F (M : model S) (C : store_class (S := S) T) (m : nat) (fresh : S) (h seq : list Z) (slack : R) : Prop :=
  let n := length seq in let evs := events_from h seq 1 in let d := levels m n in
  exists s0 s r, ffmn_init F C m fresh = Ok s0 /\ fp_update_seq F (FFMN_model F M C m) s0 seq h 1 = Ok (s, h, r) /\
    forall p (choice : nat -> S) (loss : nat -> R),
    let sgs := filter (fun sg : nat * nat => (fst sg <? n)%nat) (segments m d 0 p) in
    is_part d p ->
    (forall sg, In sg sgs -> In (choice (fst sg)) (fretained F M C m s0 evs (fst sg)) /\
      exists x, run M (choice (fst sg)) (firstn (snd sg) (skipn (fst sg) evs)) = Ok (x, - loss (fst sg))) ->
    - r <= Rsum (map (fun sg => loss (fst sg) + ln (INR (length (fretained F M C m s0 evs (fst sg))))) sgs)
           + INR (pcost d p) * ln 2 + INR (pred d) * ln (3 / 2) + slack.

(** The numbers do not grow too large and the errors stay small: [n] events, at most [d] models retained. *)
Definition fmn_room (u big : R) (max n d : nat) (L eps : R) : Prop :=
  (2 * d <= max)%nat /\ 2 * avg_size n d L 0 + 4 * (INR d + 1) ^ 2 <= big /\ 2 * avg_drift u n d L 0 eps <= 1 /\
  2 * ptw_size n L 0 + 6 <= big /\ 25 * (INR n * fmn_loss u n d L eps) <= 1.
