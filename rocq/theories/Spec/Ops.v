(** Call sequences mixing update and log_predict, and what they return. Used for models whose
    log_predict changes the (hidden) state. *)
From Verif Require Export Model.Iface.
Open Scope R_scope.

Inductive op := OpUpdate (a : Z) (h : list Z) (w : R) | OpPredict (a : Z) (h : list Z).

Section exec.
  Context {S : Type} (upd : S -> Z -> list Z -> R -> result (S * R))
          (prd : S -> Z -> list Z -> result (S * R)).
  Definition do_op (s : S) (o : op) : result (S * R) :=
    match o with OpUpdate a h w => upd s a h w | OpPredict a h => prd s a h end.

  (** The final state and the list of returned values. *)
  Fixpoint exec (s : S) (ops : list op) : result (S * list R) :=
    match ops with
    | [] => Ok (s, [])
    | o :: ops' => do (s1, r) <- do_op s o; do (s2, rs) <- exec s1 ops'; Ok (s2, r :: rs)
    end.
End exec.

(** [without ops rs ops' rs']: (ops', rs') is (ops, rs) with some log_predict calls and
    their results deleted. *)
Inductive without : list op -> list R -> list op -> list R -> Prop :=
| without_nil : without [] [] [] []
| without_keep o r ops rs ops' rs' : without ops rs ops' rs' ->
    without (o :: ops) (r :: rs) (o :: ops') (r :: rs')
| without_drop a h r ops rs ops' rs' : without ops rs ops' rs' ->
    without (OpPredict a h :: ops) (r :: rs) ops' rs'.

(** The update events of a call sequence. *)
Definition op_events (ops : list op) : list event :=
  flat_map (fun o => match o with OpUpdate a h w => [Event a h w] | _ => [] end) ops.
