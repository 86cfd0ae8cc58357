(** C44: protocol strings and lists of (name, steps) parts. *)
From Verif Require Import Model.Protocol Proofs.StrFacts Proofs.ProtocolFacts.
Open Scope Z_scope.

(** Parsing inverts formatting exactly for the non-empty lists of parts whose names have no
    underscore, whose step counts are not negative, and whose parts without steps have an empty
    name or a name that does not end in a dash or in a dash and an integer. *)
Theorem C44_round_trip : forall (uni : pystr -> option Z) (data : list (pystr * Z)),
  get_protocol_parts uni (protocol_str data) = data <->
  data <> [] /\ forall name steps, In (name, steps) data ->
    ~ In underscore name /\ 0 <= steps /\
    (steps = 0 -> name = [] \/
       (last (split dash name) [] <> [] /\ int_of_str uni (last (split dash name) []) = None)).
Proof. exact protocol_round_trip. Qed.
Print Assumptions C44_round_trip.
Example C44_ex uni :
  let data := [(lit "sleep", 100); (lit "", 3); (lit "run-fast", 0)] in
  protocol_str data = lit "sleep-100_3_run-fast" /\
  get_protocol_parts uni (lit "sleep-100_3_run-fast") = data /\
  (data <> [] /\ forall name steps, In (name, steps) data ->
    ~ In underscore name /\ 0 <= steps /\
    (steps = 0 -> name = [] \/
       (last (split dash name) [] <> [] /\ int_of_str uni (last (split dash name) []) = None))).
Proof.
  cbn zeta. split; [reflexivity|]. split; [reflexivity|]. apply C44_round_trip. reflexivity.
Qed.

(** A string formatted from its own parse parses to the same parts, if none of its parts was
    written with a step count that is not positive. *)
Theorem C44_stable : forall (uni : pystr -> option Z) (s : pystr),
  (forall p, In p (split underscore s) ->
     protocol_part uni p = (p, 0) \/ 0 < snd (protocol_part uni p)) ->
  get_protocol_parts uni (protocol_str (get_protocol_parts uni s)) = get_protocol_parts uni s.
Proof. exact protocol_stable. Qed.
Print Assumptions C44_stable.

(** Otherwise the two can differ: 'a-1-0' is ('a-1', 0), written 'a-1', which is ('a', 1). *)
Theorem C44_unstable_refuted : exists s, forall uni,
  get_protocol_parts uni (protocol_str (get_protocol_parts uni s)) <> get_protocol_parts uni s.
Proof. exact protocol_unstable. Qed.
Print Assumptions C44_unstable_refuted.
Example C44_unstable_ex uni :
  get_protocol_parts uni (lit "a-1-0") = [(lit "a-1", 0)] /\
  get_protocol_parts uni (lit "a-1") = [(lit "a", 1)].
Proof. split; reflexivity. Qed.

(** An environment directory is written as the protocol part it stands for. *)
Theorem C44_directory : forall name steps, name <> [] ->
  envdir_str (name, steps) = format_protocol (name, steps).
Proof. exact envdir_agrees. Qed.
Print Assumptions C44_directory.
