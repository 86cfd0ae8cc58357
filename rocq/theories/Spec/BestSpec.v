(** Which file has a feature and the fewest others. *)
From Verif Require Export Model.BestMatch.
Open Scope Z_scope.

(** a feature: characters that are kept in names of files, without dashes and underscores *)
Definition feature_name (a : pystr) : Prop := Forall (fun c => allowed c = true /\ c <> dash /\ c <> underscore) a.
(** the name of a text file: its extension has "txt" in it *)
Definition text_file (o : pystr) : Prop := exists s t, snd (split_ext o) = s ++ lit "txt" ++ t.

Section spec.
  Context {F : Type} (float_of : pystr -> option F).
  Variable uni : pystr -> option Z.
  Variable uninumeric : pystr -> bool.
  Variable eq : @item_ F -> @item_ F -> bool.

  Fixpoint apart (l : list (@item_ F)) : Prop :=
    match l with [] => True | a :: l' => Forall (fun b => eq a b = false) l' /\ apart l' end.
  (** there are [k] different items in the list that are not [r] *)
  Definition extras (r : @item_ F) (its : list item_) (k : Z) : Prop :=
    exists ds, Z.of_nat (length ds) = k /\ apart ds /\ (forall d, In d ds -> In d its /\ eq r d = false) /\
      forall i, In i its -> eq r i = true \/ exists d, In d ds /\ eq d i = true.
  (** the text file has the feature [r] and [k] others *)
  Definition has_extras (r : @item_ F) (o : pystr) (k : Z) : Prop :=
    text_file o /\ exists its, split_items float_of uni uninumeric (fst (split_ext o)) = Ok its /\ (exists i, In i its /\ eq r i = true) /\ extras r its k.
  Definition equivalence : Prop := (forall a, eq a a = true) /\ (forall a b, eq a b = true -> eq b a = true) /\ (forall a b c, eq a b = true -> eq b c = true -> eq a c = true).
End spec.
