(** Notions for stating what FMN does: the models offered to the store and those retained. *)
From Verif Require Export Model.FMN Spec.PTWSpec.
Open Scope R_scope.

(** Adding a list of objects to a store one after another. *)
Fixpoint st_adds {S T} (C : store_class (S := S) T) (t : T) (xs : list S) : result T :=
  match xs with
  | [] => Ok t
  | x :: xs' => do t' <- st_lazy_add C t x; st_adds C t' xs'
  end.

(** What FMN needs from a store: adding succeeds, never forgets everything, and invents
    nothing. [TI] is an invariant of the non-empty store. *)
Record store_law {S T} (C : store_class (S := S) T) (TI : T -> Prop) : Prop := StoreLaw {
  sl_first : forall x, exists t, st_lazy_add C (st_empty C) x = Ok t /\ TI t /\ st_iter C t = [x];
  sl_add : forall t x, TI t -> exists t', st_lazy_add C t x = Ok t' /\ TI t' /\
                                          incl (st_iter C t') (x :: st_iter C t);
  sl_nonempty : forall t, TI t -> st_iter C t <> [] }.

Section spec.
  Context {S T : Type} (M : model S) (C : store_class (S := S) T) (m : nat).

  (** The models retained by an FMN started in [s0] after the first [b] events. *)
  Definition retained (s0 : fmn) (evs : list event) (b : nat) : list S :=
    match run (FMN_model M C m) s0 (firstn b evs) with
    | Ok (s, _) => st_iter C (fm_models s)
    | Err _ => []
    end.

  (** [x] is a model that was retained at some time [b <= t] and was then fed the events
      from [b] to [t]. *)
  Definition reused (s0 : fmn) (evs : list event) (t : nat) (x : S) : Prop :=
    exists b m0 l, (b <= t)%nat /\ In m0 (retained s0 evs b) /\
      run M m0 (skipn b (firstn t evs)) = Ok (x, l).
End spec.
