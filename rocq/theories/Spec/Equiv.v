(** Two predictors that cannot be told apart by the values they return. *)
From Verif Require Export Spec.Prob.
Open Scope R_scope.

(** After any sequence of admissible calls of [update], the totals of the returned values are
    the same and so is what [log_predict] answers; exceptions included. *)
Definition same_values {S1 S2} (M1 : model S1) (s1 : S1) (M2 : model S2) (s2 : S2)
  (ok : event -> Prop) : Prop :=
  forall evs e, Forall ok evs -> ok e ->
    (do (_, l) <- run M1 s1 evs; Ok l) = (do (_, l) <- run M2 s2 evs; Ok l) /\
    (do (s, _) <- run M1 s1 evs; m_logp M1 s (ev_sym e) (ev_hist e)) =
    (do (s, _) <- run M2 s2 evs; m_logp M2 s (ev_sym e) (ev_hist e)).
