(** The calls that reach one factor. *)
From Verif Require Export Spec.CtwSpec.
Open Scope R_scope.

Definition op_history (o : op) : list Z := match o with OpUpdate _ h _ => h | OpPredict _ h => h end.

(** The calls made when the number of symbols seen was congruent to [i] modulo [n], with their values. *)
Definition mine (n i : nat) (l : list (op * R)) : list (op * R) :=
  filter (fun p => (length (op_history (fst p)) mod n =? i)%nat) l.

Definition my_ops (n i : nat) (l : list op) : list op :=
  filter (fun o => (length (op_history o) mod n =? i)%nat) l.

Definition my_events (n i : nat) (l : list event) : list event :=
  filter (fun e => (length (ev_hist e) mod n =? i)%nat) l.

(** The values returned by the updates. *)
Fixpoint update_values (ops : list hop) (rs : list R) : list R :=
  match ops, rs with
  | HUpdate _ _ :: ops', r :: rs' => r :: update_values ops' rs'
  | HPredict _ :: ops', _ :: rs' => update_values ops' rs'
  | _, _ => []
  end.
