(** Calls of a model, with what they return. *)
From Verif Require Export Model.FMNObjects.
Open Scope R_scope.

Inductive call := Update (e : event) | Predict (a : Z) (hist : list Z).

Fixpoint replies {S} (M : model S) (s : S) (calls : list call) : result (list R) :=
  match calls with
  | [] => Ok []
  | Update e :: calls' => do (s, r) <- m_update M s (ev_sym e) (ev_hist e) (ev_wt e); do rs <- replies M s calls'; Ok (r :: rs)
  | Predict a hist :: calls' => do r <- m_logp M s a hist; do rs <- replies M s calls'; Ok (r :: rs)
  end.

(** the state after all calls *)
Fixpoint after {S} (M : model S) (s : S) (calls : list call) : result S :=
  match calls with
  | [] => Ok s
  | Update e :: calls' => do (s, _) <- m_update M s (ev_sym e) (ev_hist e) (ev_wt e); after M s calls'
  | Predict a hist :: calls' => do _ <- m_logp M s a hist; after M s calls'
  end.

(** A model that counts its updates, for examples. *)
Definition counting : model nat := Model (fun n _ _ _ => Ok (S n, 0)) (fun n _ _ => Ok 0).
