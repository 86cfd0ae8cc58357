(** C58: modifiers of feature names. *)
From Coq Require Import Sorting.Sorted.
From Verif Require Import Model.UtilNames Proofs.UtilNamesFacts.
Open Scope Z_scope.

(** Modifiers appended to a name are taken off again, in order. *)
Theorem C58_split : forall h ms mods,
  (forall p, In p (tl (PyStr.split underscore h)) -> ~ In p mods) ->
  (forall m, In m ms -> In m mods /\ ~ In underscore m) ->
  split_modifiers (join [underscore] (h :: ms)) (Some mods) = (h, ms).
Proof. exact modifiers_round. Qed.
Print Assumptions C58_split.
Example C58_split_ex :
  split_modifiers (lit "trace_rate_scaled") (Some [lit "trace"; lit "scaled"])
  = (lit "trace_rate", [lit "scaled"]).
Proof. reflexivity. Qed.

Theorem C58_split_all : forall s,
  join [underscore] (let '(n, m) := split_modifiers s None in n :: m) = s.
Proof. exact split_modifiers_all. Qed.
Print Assumptions C58_split_all.

Theorem C58_remove : forall values sort_ mods,
  NoDup (remove_modifiers values sort_ mods) /\
  (forall x, In x (remove_modifiers values sort_ mods) <->
     exists v, In v values /\ fst (split_modifiers v mods) = x) /\
  (sort_ = true -> StronglySorted (fun x y => strle x y = true) (remove_modifiers values sort_ mods)).
Proof. exact remove_in. Qed.
Print Assumptions C58_remove.
Example C58_remove_ex :
  remove_modifiers [lit "obs2_scaled"; lit "obs1_scaled"; lit "obs2_return"] false None
  = [lit "obs2"; lit "obs1"].
Proof. reflexivity. Qed.

(** A modifier is appended to every header that does not contain it as a substring, *)
Theorem C58_add_partial : forall headers mods keep x, In x (add_modifiers headers mods keep) <->
  exists h, In h headers /\ ((keep = true /\ x = h) \/
    exists m, In m mods /\ (forall s t, h <> s ++ m ++ t) /\ x = h ++ [underscore] ++ m).
Proof. exact add_spec. Qed.
Print Assumptions C58_add_partial.

(** so some headers that do not have the modifier do not get it. *)
Theorem C58_add_refuted : exists h m, add_modifiers [h] [m] false = [] /\
  ~ In m (snd (split_modifiers h (Some [m]))).
Proof. exact substring_not_added. Qed.
Print Assumptions C58_add_refuted.

(** match_sets counts the additional features, or answers -1 when some are missing. *)
Theorem C58_match : forall required potential, NoDup required -> NoDup potential ->
  (match_sets required potential = -1 <-> ~ incl required potential) /\
  (incl required potential -> match_sets required potential =
     Z.of_nat (length (filter (fun x => negb (existsb (streq x) required)) potential))).
Proof. exact match_spec. Qed.
Print Assumptions C58_match.
Example C58_match_ex : match_sets [lit "a"] [lit "b"; lit "a"] = 1 /\ match_sets [lit "c"] [lit "a"] = -1.
Proof. split; reflexivity. Qed.
