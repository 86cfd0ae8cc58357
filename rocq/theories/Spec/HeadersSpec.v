(** Names with numbers at the end, and the headers that stand for them. *)
From Verif Require Export Model.LogHeaders.
Open Scope Z_scope.

Section spec.
  Variable uninumeric : pystr -> bool.
  Variable to_str : pval -> pystr.
  Definition numeric_char (c : Z) : Prop := isnumeric uninumeric [c] = true.
  (** digits and dots, the last a digit *)
  Definition number_text (ds : pystr) : Prop := Forall (fun c => numeric_char c \/ c = dot) ds /\ exists ds' c, ds = ds' ++ [c] /\ numeric_char c.
  (** a name that does not end like a number *)
  Definition name_end (p : pystr) : Prop := exists p' c, p = p' ++ [c] /\ ~ numeric_char c /\ c <> dot /\ c <> dash.
  (** prefix[suffix] *)
  Definition array_name (prefix : pystr) (suffix : option pval) : pystr :=
    prefix ++ lit "[" ++ match suffix with Some v => to_str v | None => lit "None" end ++ lit "]".
End spec.
