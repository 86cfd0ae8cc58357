(** What it means for a Structure to log its data. *)
From Verif Require Export Spec.RecordsSpec Model.StructLogs.
Open Scope Z_scope.

(** The same fields on all levels, dictionaries up to order. *)
Inductive alike : list member -> sattrs -> sattrs -> Prop :=
| Alike members a b :
    (forall f, In (MField f) members -> shown f ->
       match get_value a (f_name f), get_value b (f_name f) with
       | Some v, Some w => same_value v w
       | None, None => True
       | _, _ => False
       end) ->
    (forall m, In m members -> alike_member m a b) ->
    alike members a b
with alike_member : member -> sattrs -> sattrs -> Prop :=
| AlikeField f a b : alike_member (MField f) a b
| AlikeStruct n req k p t members inherited a b x y :
    gd_get streq a n = Some (SInst x) -> gd_get streq b n = Some (SInst y) ->
    alike members x y -> alike_member (MStruct n req k p t (Some (members, inherited))) a b.

(** The instance can log to [p]: its class names the file [f], and it lies in the directory [d]. *)
Definition logs_to (c : log_class) (a : sattrs) (d f p : pystr) : Prop :=
  l_log_data c = true /\ l_log_file c = Some f /\ f <> [] /\ ~ In slash f /\
  exists b s, get_value a (lit "base_dir") = Some (VStr b) /\ nested_string (l_members c) a = Ok s /\
    d = path_join2 b s /\ d <> [] /\ p = path_join2 d f.

(** what a saved log looks like *)
Definition log_text (p csv : pystr) : pystr := lit "# " ++ p ++ [nl] ++ csv.
(** nothing loaded yet *)
Definition no_data (a : sattrs) : Prop := gd_get streq (own_attrs a) (lit "_data") = None.
