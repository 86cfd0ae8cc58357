(** What it means for a predictive model to behave as a probability distribution, stated
    through the observable values of [update] and [log_predict] only. *)
From Verif Require Export Model.Iface.
Open Scope R_scope.

(** Product of a list of reals. *)
Definition Rprod (l : list R) : R := fold_right Rmult 1 l.

Section spec.
  Context {S : Type} (M : model S).

  (** The probability [log_predict] assigns (0 if it raises). *)
  Definition pred_prob (s : S) (a : Z) (h : list Z) : R :=
    match m_logp M s a h with Ok l => exp l | Err _ => 0 end.

  (** Feeding the events one after another to [update]: the state reached and the sum of
      the returned log probabilities. *)
  Fixpoint run (s : S) (evs : list event) : result (S * R) :=
    match evs with
    | [] => Ok (s, 0)
    | e :: evs' =>
        do (s1, l) <- m_update M s (ev_sym e) (ev_hist e) (ev_wt e);
        do (s2, ls) <- run s1 evs';
        Ok (s2, l + ls)
    end.

  (** The probability that a model started in [s] gives to the whole event sequence:
      the product of the probabilities returned by [update] (0 if some call raises). *)
  Fixpoint seq_prob (s : S) (evs : list event) : R :=
    match evs with
    | [] => 1
    | e :: evs' =>
        match m_update M s (ev_sym e) (ev_hist e) (ev_wt e) with
        | Ok (s1, l) => exp l * seq_prob s1 evs'
        | Err _ => 0
        end
    end.
End spec.

(** In all states satisfying an invariant, update and log_predict succeed on symbols of the
    alphabet [A] (with histories satisfying [okh], weights [okw]) and return the same value,
    and update preserves the invariant. *)
Definition steps {S} (M : model S) (A : list Z) (okh : list Z -> Prop) (okw : R -> Prop)
  (Inv : S -> Prop) : Prop :=
  forall s a h w, Inv s -> In a A -> okh h -> okw w ->
    exists s' l, m_update M s a h w = Ok (s', l) /\ m_logp M s a h = Ok l /\ Inv s'.

(** A model is lawful if moreover the predicted probabilities sum to one over the alphabet. *)
Record lawful {S} (M : model S) (A : list Z) (okh : list Z -> Prop) (okw : R -> Prop)
  (Inv : S -> Prop) : Prop := Lawful {
  law_step : steps M A okh okw Inv;
  law_norm : forall s h, Inv s -> okh h -> Rsum (map (fun a => pred_prob M s a h) A) = 1 }.

(** An event over the alphabet with admissible history and weight. *)
Definition ok_event (A : list Z) (okh : list Z -> Prop) (okw : R -> Prop) (e : event) : Prop :=
  In (ev_sym e) A /\ okh (ev_hist e) /\ okw (ev_wt e).

(** In every state, for every call, [update] returns the value that [log_predict] returns
    just before, and raises exactly when (and what) [log_predict] raises. *)
Definition agrees {S} (M : model S) : Prop :=
  forall s a h w, (do (_, l) <- m_update M s a h w; Ok l) = m_logp M s a h.
