(** C51: running means and decaying traces. *)
From Coq Require Import Lra.
From Verif Require Import Model.Signals Proofs.SignalFacts.
Open Scope R_scope.

(** For a window of at least two steps: the mean of every full window, in order. *)
Theorem C51_running_mean_partial : forall (data : list R) (n : Z), data <> [] -> (2 <= n)%Z ->
  exists ret, running_mean data n = Ok ret /\ length ret = (length data + 1 - Z.to_nat n)%nat /\
    forall i, (i < length ret)%nat ->
      nth i ret 0 = Rsum (map (fun k => nth (i + k) data 0) (seq 0 (Z.to_nat n))) / IZR n.
Proof. exact mean_spec. Qed.
Print Assumptions C51_running_mean_partial.

(** A window of one step returns nothing instead of the data. *)
Theorem C51_window_one_refuted : forall data : list R, data <> [] -> running_mean data 1 = Ok [].
Proof. exact mean_one. Qed.
Print Assumptions C51_window_one_refuted.

Theorem C51_running_mean_error : forall (data : list R) (n : Z),
  (n <= 0)%Z \/ data = [] -> running_mean data n = Err ValueError.
Proof. exact mean_bad. Qed.
Print Assumptions C51_running_mean_error.

(** Accumulating traces: every past value counts, discounted by its age. *)
Theorem C51_trace_accumulating : forall (f : list R) (trace : R), f <> [] ->
  exists d, decay_trace f trace false = Ok d /\ length d = length f /\
    forall t, (t < length f)%nat ->
      nth t d 0 = Rsum (map (fun k => trace ^ k * nth (t - k) f 0) (seq 0 (S t))).
Proof. exact trace_accumulating. Qed.
Print Assumptions C51_trace_accumulating.

(** Replacing traces: the same recurrence cut off at the maximum of the signal. *)
Theorem C51_trace_replacing : forall (f : list R) (trace m : R), py_max f = Ok m ->
  exists d, decay_trace f trace true = Ok d /\ length d = length f /\
    (forall t, (t < length f)%nat -> nth t d 0 <= m) /\
    nth 0 d 0 = nth 0 f 0 /\
    (forall t, (S t < length f)%nat -> nth (S t) d 0 = Rmin (nth (S t) f 0 + trace * nth t d 0) m).
Proof. exact trace_replacing. Qed.
Print Assumptions C51_trace_replacing.

Theorem C51_trace_between : forall (f : list R) (trace : R) (d : list R) (m : R),
  py_max f = Ok m -> 0 <= trace -> (forall x, In x f -> 0 <= x) ->
  decay_trace f trace true = Ok d ->
  forall t, (t < length f)%nat -> nth t f 0 <= nth t d 0 <= m.
Proof. exact trace_at_least. Qed.
Print Assumptions C51_trace_between.

Example C51_ex_trace : py_max [1; 0; 2; 0] = Ok 2 /\
  decay_trace [1; 0; 2; 0] (1 / 2) true = Ok [1; 1 / 2; 2; 1] /\
  decay_trace [1; 0; 2; 0] (1 / 2) false = Ok [1; 1 / 2; 9 / 4; 9 / 8].
Proof.
  assert (E : py_max [1; 0; 2; 0] = Ok 2).
  { unfold py_max. cbn [fold_left]. repeat (destruct (Rlt_dec _ _); try lra); reflexivity. }
  split; [exact E|]. unfold decay_trace. rewrite E. cbn [bind trace_loop]. split; f_equal.
  - unfold py_min2. repeat (destruct (Rlt_dec _ _); try lra); repeat (apply (f_equal2 (@cons R)); [lra|]); reflexivity.
  - repeat (apply (f_equal2 (@cons R)); [lra|]); reflexivity.
Qed.
Example C51_ex_mean : running_mean [1; 2; 2; 4] 2 = Ok [3 / 2; 2; 3].
Proof.
  unfold running_mean, np_convolve, slice, slice_start. cbv -[Rplus Rmult Rdiv Rinv IZR]. apply f_equal; repeat (apply (f_equal2 (@cons R)); [lra|]); reflexivity.
Qed.
