(** Notions for stating what the Averager and the FMN of ctw.py do. *)
From Verif Require Export Model.CtwFMN Spec.FMNSpec Spec.Equiv.
Open Scope R_scope.

(** [log_prob] is only a running total: update increases it by what it returns, and setting it to
    0 ([reset]) shows in no value returned later. *)
Record running_total {S} (Q : probseq S) (reset : S -> S) : Prop := RunningTotal {
  rt_adds : forall s a h w s' l, m_update (q_model Q) s a h w = Ok (s', l) -> q_lp Q s' = q_lp Q s + l;
  rt_zero : forall s, q_lp Q (reset s) = 0;
  rt_idem : forall s, reset (reset s) = reset s;
  rt_update : forall s a h w,
    (do (s', l) <- m_update (q_model Q) (reset s) a h w; Ok (reset s', l)) =
    (do (s', l) <- m_update (q_model Q) s a h w; Ok (reset s', l));
  rt_logp : forall s a h, m_logp (q_model Q) (reset s) a h = m_logp (q_model Q) s a h }.

(** [log_prob] is computed anew at each update, and update returns the difference to the previous
    value: after a reset it returns more. *)
Definition recomputed {S} (Q : probseq S) (reset : S -> S) : Prop :=
  (forall s, q_lp Q (reset s) = 0) /\
  forall s a h w, m_update (q_model Q) (reset s) a h w =
                  do (s', l) <- m_update (q_model Q) s a h w; Ok (s', q_lp Q s').

(** The members of an Averager, [fed] with events since its construction. *)
Definition fed {S} (Q : probseq S) (reset : S -> S) (evs : list event) (m m' : S) : Prop :=
  exists l, run (q_model Q) (reset m) evs = Ok (m', l) /\ q_lp Q m' = l.

Section spec.
  Context {S T : Type} (Q : probseq S) (reset : S -> S) (C : store_class (S := S) T).
  Variable order : nat -> list S -> list S.

  (** The models retained by an FMN started in [s0] after the first [b] events. *)
  Definition qretained (s0 : qfmn) (evs : list event) (b : nat) : list S :=
    match run (QFMN_model Q reset C order) s0 (firstn b evs) with
    | Ok (s, _) => st_iter C (qf_models s)
    | Err _ => []
    end.

  (** [x] is a model that was retained at some time [b <= t] and was then fed the events from
      [b] to [t]. *)
  Definition qreused (s0 : qfmn) (evs : list event) (t : nat) (x : S) : Prop :=
    exists b m0, (b <= t)%nat /\ In m0 (qretained s0 evs b) /\
      fed Q reset (skipn b (firstn t evs)) m0 x.
End spec.
