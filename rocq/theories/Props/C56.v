(** C56: parameters on the command line. *)
From Verif Require Import Spec.UtilNames Proofs.UtilNamesFacts.
Open Scope Z_scope.

(** Read option by option, the command line has one option for every parameter but those that are
    False, in the order of the keys: without values for True, with the texts of the values
    otherwise. Parameters that are the numbers 0 or 1 are excepted. *)
Theorem C56_args_partial : forall params, (forall k v, In (k, v) params -> ~ zero_or_one v) ->
  (forall k v vals s, In (k, v) params -> expected v = Some vals -> In s vals -> is_option s = false) ->
  group_args (params_to_args params) =
  flat_map (fun p => match expected (snd p) with
                     | None => []
                     | Some vals => [(lit "--" ++ fst p, vals)]
                     end) (sort_items params).
Proof. exact args_grouped. Qed.
Print Assumptions C56_args_partial.
Example C56_ex :
  params_to_args [(lit "horizon", UOne (UInt 2)); (lit "f", UList [UStr (lit "a"); UStr (lit "b")]);
                  (lit "reset", UOne (UBool true)); (lit "x", UOne (UBool false))]
  = [lit "--f"; lit "a"; lit "b"; lit "--horizon"; lit "2"; lit "--reset"].
Proof. reflexivity. Qed.

(** The number 0 is dropped and the number 1 loses its value. *)
Theorem C56_numbers_refuted : forall k, params_to_args [(k, UOne (UInt 0))] = [] /\
  params_to_args [(k, UOne (UInt 1))] = [lit "--" ++ k].
Proof. exact numbers_dropped. Qed.
Print Assumptions C56_numbers_refuted.
