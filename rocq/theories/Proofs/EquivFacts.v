(** Proving [same_values] by a simulation relation. *)
From Verif Require Import Spec.Equiv.
Open Scope R_scope.

Section sim.
  Context {S1 S2} (M1 : model S1) (M2 : model S2) (Rel : S1 -> S2 -> Prop) (ok : event -> Prop).

  (** Both raise the same exception, or both succeed with the same value and related states. *)
  Definition sim_result (r1 : result (S1 * R)) (r2 : result (S2 * R)) : Prop :=
    match r1, r2 with
    | Ok (s1, l1), Ok (s2, l2) => Rel s1 s2 /\ l1 = l2
    | Err e1, Err e2 => e1 = e2
    | _, _ => False
    end.

  Hypothesis Hupd : forall s1 s2 e, Rel s1 s2 -> ok e ->
    sim_result (m_update M1 s1 (ev_sym e) (ev_hist e) (ev_wt e))
               (m_update M2 s2 (ev_sym e) (ev_hist e) (ev_wt e)).
  Hypothesis Hlogp : forall s1 s2 e, Rel s1 s2 -> ok e ->
    m_logp M1 s1 (ev_sym e) (ev_hist e) = m_logp M2 s2 (ev_sym e) (ev_hist e).

  Lemma sim_run s1 s2 evs : Rel s1 s2 -> Forall ok evs -> sim_result (run M1 s1 evs) (run M2 s2 evs).
  Proof.
    revert s1 s2; induction evs as [|e evs IH]; intros s1 s2 HR Hev; cbn [run].
    - cbn. auto.
    - inversion Hev as [|x y He Hev']; subst. pose proof (Hupd s1 s2 e HR He) as Hu.
      destruct (m_update M1 s1 _ _ _) as [[t1 l1]|e1], (m_update M2 s2 _ _ _) as [[t2 l2]|e2]; cbn in Hu; try contradiction.
      + destruct Hu as (HR' & <-). cbn [bind]. pose proof (IH t1 t2 HR' Hev') as Hr.
        destruct (run M1 t1 evs) as [[u1 m1]|], (run M2 t2 evs) as [[u2 m2]|]; cbn in *; try contradiction.
        * destruct Hr as (? & <-). auto.
        * exact Hr.
      + subst. reflexivity.
  Qed.

  Lemma sim_values s1 s2 : Rel s1 s2 -> same_values M1 s1 M2 s2 ok.
  Proof.
    intros HR evs e Hev He. pose proof (sim_run s1 s2 evs HR Hev) as Hr.
    destruct (run M1 s1 evs) as [[u1 m1]|], (run M2 s2 evs) as [[u2 m2]|]; cbn in *; try contradiction.
    - destruct Hr as (HR' & <-). split; [reflexivity|]. apply Hlogp; assumption.
    - subst. split; reflexivity.
  Qed.
End sim.
