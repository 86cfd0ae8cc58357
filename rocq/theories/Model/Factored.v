(** model.py:838-865: Factored. *)
From Verif Require Export Model.Iface.
Open Scope R_scope.

Section factored.
  Context {S : Type} (M : model S).
  Definition factored := list S.

  (** model.py:854 / 858: [len(history) % len(self.factors)] *)
  Definition fac_index (s : factored) (history : list Z) : result nat :=
    match s with
    | [] => Err ZeroDivisionError
    | _ => Ok (Nat.modulo (length history) (length s))
    end.

  (** model.py:853-855 *)
  Definition fac_log_predict (s : factored) (symbol : Z) (history : list Z) : result R :=
    do i <- fac_index s history;
    match nth_error s i with
    | Some m => m_logp M m symbol history
    | None => Err IndexError
    end.

  (** model.py:857-859. The factor is called without [weight], so it uses its default 1.0. *)
  Definition fac_update (s : factored) (symbol : Z) (history : list Z) (weight : R)
    : result (factored * R) :=
    do i <- fac_index s history;
    match nth_error s i with
    | Some m =>
        do (m', l) <- m_update M m symbol history 1;
        Ok (list_set s i m', l)
    | None => Err IndexError
    end.

  Definition Factored_model : model factored := Model fac_update fac_log_predict.
End factored.

(** model.py:867-885: Dumb. Its [copy] is the inherited one, which raises. *)
Definition Dumb_model : model unit :=
  Model (fun s _ _ _ => Ok (s, 0)) (fun _ _ _ => Ok 0).

(** Objects of two different classes in one list: method calls go to the object's class. *)
Definition either_model {S1 S2} (M1 : model S1) (M2 : model S2) : model (S1 + S2) :=
  Model
    (fun s a h w => match s with
                    | inl s1 => do (s1', l) <- m_update M1 s1 a h w; Ok (inl s1', l)
                    | inr s2 => do (s2', l) <- m_update M2 s2 a h w; Ok (inr s2', l)
                    end)
    (fun s a h => match s with inl s1 => m_logp M1 s1 a h | inr s2 => m_logp M2 s2 a h end).
