(** Terms for C59. *)
From Verif Require Export Model.PyStr Model.PyDict.
Open Scope Z_scope.

Section processed.
  Context {Column Range : Type}.
  Variable rollmean unitvect : Column -> result Column.
  Variable scale : Range -> Column -> result Column.
  Variable ranges : option (list (pystr * Range)).

  (** [processed h names c c']: the named filters turn [c] into [c'], from left to right, scaling
      with the range of [h]. *)
  Inductive processed (h : option pystr) : list pystr -> Column -> Column -> Prop :=
  | done c : processed h [] c c
  | skipped fs c c' : processed h fs c c' -> processed h ([] :: fs) c c'
  | averaged fs c c1 c' : rollmean c = Ok c1 -> processed h fs c1 c' ->
      processed h (lit "rollmean" :: fs) c c'
  | unitized fs c c1 c' : unitvect c = Ok c1 -> processed h fs c1 c' ->
      processed h (lit "unitvect" :: fs) c c'
  | scaled fs c c1 c' n r g : h = Some n -> ranges = Some r -> gd_get streq r n = Some g ->
      scale g c = Ok c1 -> processed h fs c1 c' -> processed h (lit "scaled" :: fs) c c'.

  (** The columns keep their names and order. Every column is processed by the filters asked for
      under its name, or the name it is mapped to, and scaled with the range [rh] finds for that
      name. *)
  Definition processed_columns (rh : pystr -> option pystr) (kwargs : list (pystr * list pystr))
      (mapping : list (pystr * pystr)) (data out : list (pystr * Column)) : Prop :=
    Forall2 (fun before after => fst after = fst before /\
      let name := match gd_get streq mapping (fst before) with Some p => p | None => fst before end in
      let names := match gd_get streq kwargs name with Some fs => fs | None => [] end in
      processed (rh name) names (snd before) (snd after)) data out.
End processed.

(** the last keyword *)
Definition last_header (kwargs : list (pystr * list pystr)) : option pystr :=
  match kwargs with [] => None | _ => Some (last (map fst kwargs) []) end.
