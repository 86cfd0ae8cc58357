(** What grouping parameter sets is to do. *)
From Verif Require Export Model.Groups Spec.FileNames.
Open Scope Z_scope.

(** [p] and [q] are in one group *)
Definition together (groups : list (pystr * list params)) (p q : params) : Prop :=
  exists k l, In (k, l) groups /\ In p l /\ In q l.
(** a whole number, or not set *)
Definition number (v : option uval) : Prop := v = None \/ exists n, v = Some (UOne (UInt n)).
(** a word of letters, digits and dots other than None, or not set *)
Definition word (v : option uval) : Prop :=
  v = None \/ exists s, v = Some (UOne (UStr s)) /\ s <> lit "None" /\ Forall safe s /\ ~ In dash s /\ ~ In underscore s.
Definition comparable (v w : option uval) : Prop := number v /\ number w \/ word v /\ word w.
