(** Calls of objects that keep their own history. *)
From Verif Require Export Spec.Ops Spec.Prob.
Open Scope R_scope.

Inductive hop := HUpdate (a : Z) (w : R) | HPredict (a : Z).

(** The same calls with the history handed over: all symbols updated so far, after [h]. *)
Fixpoint with_history (h : list Z) (ops : list hop) : list op :=
  match ops with
  | [] => []
  | HUpdate a w :: ops' => OpUpdate a h w :: with_history (h ++ [a]) ops'
  | HPredict a :: ops' => OpPredict a h :: with_history h ops'
  end.

(** The symbols updated. *)
Definition updated (ops : list hop) : list Z :=
  flat_map (fun o => match o with HUpdate a _ => [a] | HPredict _ => [] end) ops.

Section hexec.
  Context {S : Type} (upd : S -> Z -> R -> result (S * R)) (prd : S -> Z -> result (S * R)).
  Definition do_hop (s : S) (o : hop) : result (S * R) :=
    match o with HUpdate a w => upd s a w | HPredict a => prd s a end.
  Fixpoint hexec (s : S) (ops : list hop) : result (S * list R) :=
    match ops with
    | [] => Ok (s, [])
    | o :: ops' => do (s1, r) <- do_hop s o; do (s2, rs) <- hexec s1 ops'; Ok (s2, r :: rs)
    end.
End hexec.

(** Sequences treated one after another, the history cleared after each. *)
Section episodes.
  Context {S : Type} (reset : S -> result S).
  Context (upd : S -> Z -> R -> result (S * R)) (prd : S -> Z -> result (S * R)).
  Fixpoint episodes (s : S) (eps : list (list hop)) : result (S * list R) :=
    match eps with
    | [] => Ok (s, [])
    | ops :: eps' =>
        do (s1, rs) <- hexec upd prd s ops;
        do s2 <- reset s1;
        do (s3, rs') <- episodes s2 eps';
        Ok (s3, rs ++ rs')
    end.
End episodes.

(** The same object used with a history kept outside: before each call it is given the history. *)
Section ext_exec.
  Context {S : Type} (use : S -> list Z -> S).
  Context (upd : S -> Z -> R -> result (S * R)) (prd : S -> Z -> result (S * R)).
  Definition ext_op (s : S) (o : op) : result (S * R) :=
    match o with
    | OpUpdate a h w => upd (use s h) a w
    | OpPredict a h => prd (use s h) a
    end.
  Fixpoint ext_exec (s : S) (ops : list op) : result (S * list R) :=
    match ops with
    | [] => Ok (s, [])
    | o :: ops' => do (s1, r) <- ext_op s o; do (s2, rs) <- ext_exec s1 ops'; Ok (s2, r :: rs)
    end.
End ext_exec.

(** Updating with the symbols and weights in turn. *)
Definition updates (sw : list (Z * R)) : list hop := map (fun p => HUpdate (fst p) (snd p)) sw.

(** What a call sequence shows: the returned values, or the exception. *)
Definition shown {S} (r : result (S * list R)) : result (list R) := do (_, rs) <- r; Ok rs.

(** The events of updating with the symbols and weights in turn, after history [h]. *)
Fixpoint events_after (h : list Z) (sw : list (Z * R)) : list event :=
  match sw with
  | [] => []
  | (a, w) :: sw' => Event a h w :: events_after (h ++ [a]) sw'
  end.

(** A class whose methods take no history: the interface of [Model] with the history ignored. *)
Definition without_history {S} (M : model S) : model S :=
  Model (fun s a _ w => m_update M s a [] w) (fun s a _ => m_logp M s a []).

(** The calls [log_predict_seq] makes: the history grows, nothing is learned. *)
Fixpoint predict_ops (h : list Z) (seq : list Z) : list op :=
  match seq with
  | [] => []
  | a :: seq' => OpPredict a h :: predict_ops (h ++ [a]) seq'
  end.

(** Removing some [log_predict] calls and their values. *)
Inductive hwithout : list hop -> list R -> list hop -> list R -> Prop :=
| hwithout_nil : hwithout [] [] [] []
| hwithout_keep o r ops rs ops' rs' : hwithout ops rs ops' rs' ->
    hwithout (o :: ops) (r :: rs) (o :: ops') (r :: rs')
| hwithout_drop a r ops rs ops' rs' : hwithout ops rs ops' rs' ->
    hwithout (HPredict a :: ops) (r :: rs) ops' rs'.

(** The symbols a call sequence mentions are in [A], its weights satisfy [okw]. *)
Definition ok_hop (A : list Z) (okw : R -> Prop) (o : hop) : Prop :=
  match o with HUpdate a w => In a A /\ okw w | HPredict a => In a A end.
