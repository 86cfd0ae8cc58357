(** How many base models and nodes the composite models hold. *)
From Verif Require Export Model.PTW Model.CtwPTW Model.FMN Model.CTW Spec.Ops Spec.CTWSpec Spec.FMNSpec.
Open Scope R_scope.

(** The base models a partition tree refers to, root first. *)
Fixpoint pbases {S} (n : pnode S) : list S :=
  let '(PNode base _ _ _ _ _ rch) := n in base :: match rch with Some r => pbases r | None => [] end.
Fixpoint qbases {S} (n : qnode S) : list S :=
  let '(QNode base _ _ _ rch _) := n in base :: match rch with Some r => qbases r | None => [] end.

(** All base models an FMN refers to: those in its store and the members of the averages in its
    tree. *)
Definition fmn_bases {S T} (C : store_class (S := S) T) (s : fmn (S := S) (T := T)) : list S :=
  st_iter C (fm_models s) ++
  concat (map (fun a => map (fun kv => fst (snd kv)) (av_models a)) (pbases (pt_tree (fm_ptw s)))).

(** How many binary digits of [n] are 1. A number [n] has at most [n] digits. *)
Definition ones (n : nat) : nat := length (filter (Nat.testbit n) (seq 0 n)).

(** At most [B k] objects are left of [k] objects added. *)
Definition keeps_at_most {S T} (C : store_class (S := S) T) (B : nat -> nat) : Prop :=
  forall xs t, xs <> [] -> st_adds C (st_empty C) xs = Ok t -> (length (st_iter C t) <= B (length xs))%nat.

(** The contexts of a list of calls: for each call the last 0, 1, ..., [d] symbols. *)
Definition op_hist (o : op) : list Z := match o with OpUpdate _ h _ => h | OpPredict _ h => h end.
Definition contexts (d : nat) (ops : list op) : list (list Z) :=
  flat_map (fun o => map (fun j => recent j (op_hist o)) (seq 0 (d + 1))) ops.
Definition distinct (l : list (list Z)) : nat := length (nodup (list_eq_dec Z.eq_dec) l).
