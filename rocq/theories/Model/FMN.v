(** model.py:796-835: FMN, with the LogStore and the LogStoreUniform model stores. *)
From Verif Require Export Model.PTW Model.Averager Model.Stores.
Open Scope R_scope.

Section fmn.
  Context {S : Type} (M : model S).

  (** The [model_store_factory] argument, as the operations FMN uses: [lazy_add] and
      iteration. *)
  Record store_class (T : Type) := StoreClass {
    st_empty : T;
    st_lazy_add : T -> S -> result T;
    st_iter : T -> list S }.
  Context {T : Type} (C : store_class T).
  Variable min_height : nat.

  (** Distinct identities for freshly copied objects. *)
  Fixpoint number_from {X} (i : Z) (l : list X) : list (Z * X) :=
    match l with [] => [] | x :: l' => (i, x) :: number_from (i + 1)%Z l' end.

  (** model.py:825-826: [Averager([m.copy() for m in self.models])]. Each copy is a new
      object with the same state. *)
  Definition fmn_factory (models : T) : result (avg S) :=
    avg_init (number_from 0 (st_iter T C models)).

  Record fmn := FMN { fm_models : T; fm_ptw : ptw (S := avg S); fm_t : nat }.

  (** model.py:811-823 *)
  Definition fmn_init (fresh : S) : result fmn :=
    do models <- st_lazy_add T C (st_empty T C) fresh;
    do a <- fmn_factory models;
    Ok (FMN models (ptw_init min_height a) 0).

  (** model.py:828-835. [model_factory()] is called only when a node is created; calling it
      eagerly here changes nothing since it has no effect besides creating the copies. The
      thunk handed to [lazy_add] is likewise evaluated at once. *)
  Definition fmn_update (s : fmn) (symbol : Z) (history : list Z) (weight : R)
    : result (fmn * R) :=
    do a <- fmn_factory (fm_models s);
    do (p, rv) <- ptw_update (AVG_model M) min_height a (fm_ptw s) symbol history weight;
    let t := (fm_t s + 1)%nat in
    if Nat.eqb (Nat.modulo t (2 ^ min_height)) 0 then
      do (_, m) <- avg_map (ptw_map p);
      do models <- st_lazy_add T C (fm_models s) m;
      Ok (FMN models p t, rv)
    else Ok (FMN (fm_models s) p t, rv).

  (** inherited model.py:625-636 *)
  Definition fmn_log_predict (s : fmn) (symbol : Z) (history : list Z) : result R :=
    ptw_log_predict (AVG_model M) (fm_ptw s) symbol history.
End fmn.
Arguments StoreClass {S T}.
Arguments st_empty {S T}.
Arguments st_lazy_add {S T}.
Arguments st_iter {S T}.
Arguments FMN {S T}.
Arguments fm_models {S T}.
Arguments fm_ptw {S T}.
Arguments fm_t {S T}.

(** model.py:692-742 as a store class *)
Definition LogStore_class (S : Type) : store_class (S := S) (logstore S) :=
  StoreClass ls_init (fun s x => Ok (ls_add s x)) ls_iter.

(** model.py:745-793 as a store class *)
Definition LogStoreUniform_class (S : Type) : store_class (S := S) (ustore S) :=
  StoreClass us_init us_add us_iter.

(** The class with the model interface. *)
Definition FMN_model {S T} (M : model S) (C : store_class (S := S) T) (min_height : nat)
  : model (fmn (S := S) (T := T)) :=
  Model (fmn_update M C min_height) (fmn_log_predict M).
