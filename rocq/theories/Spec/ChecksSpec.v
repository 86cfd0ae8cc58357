(** What setting attributes and checking parameters are to do. *)
From Verif Require Export Model.Checks.
Open Scope Z_scope.

(** the parameters that are to be set: all, or those that are valid *)
Definition wanted (include_all : bool) (valid : list pystr) (k : pystr) : Prop := include_all = true \/ In k valid.
(** the parameters that are not to be None *)
Definition checked (include_all : bool) (valid : list pystr) (k : pystr) : Prop :=
  wanted include_all valid k /\ (valid = [] \/ In k valid).
(** what [k] is to be: the parameter, or for a valid one without parameter what it was *)
Definition due (valid : list pystr) (params obj : attrs) (k : pystr) (v : pval) : Prop :=
  gd_get streq params k = Some v \/ gd_get streq params k = None /\ In k valid /\ gd_get streq obj k = Some v.

(** [v] is one of the values that [r] allows: an entry of a list, a part of a string, a key of a dictionary, or [r] itself *)
Inductive admits : pval -> pval -> Prop :=
| AList l v : In v l -> admits (VList l) v
| AStr a b t : admits (VStr (a ++ t ++ b)) (VStr t)
| AKey d t x : In (t, x) d -> admits (VDict d) (VStr t)
| ADict d : admits (VDict d) (VDict d)
| ASame r : (forall l, r <> VList l) -> (forall s, r <> VStr s) -> (forall d, r <> VDict d) -> admits r r.
