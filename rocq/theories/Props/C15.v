(** C15: CTW conditions on exactly the last depth symbols (for depth >= 1). *)
From Verif Require Import Model.CTW Model.KT Spec.CTWSpec Proofs.CTWTop Proofs.CTWProps.
Open Scope R_scope.

(** The default context: the last [d] symbols, zero padded on the old side. *)
Theorem C15_context_is_last_symbols : forall d h, (0 < d)%nat ->
  mkcontext (Z.of_nat d) h = repeat 0%Z (d - length h) ++ skipn (length h - d) h.
Proof. exact mkcontext_last. Qed.
Print Assumptions C15_context_is_last_symbols.
Example C15_context_ex : mkcontext 3 [7; 8]%Z = [0; 7; 8]%Z /\ mkcontext 2 [7; 8; 9]%Z = [8; 9]%Z.
Proof. split; reflexivity. Qed.

Theorem C15_context_reversed : forall d h, (0 < d)%nat ->
  rev (mkcontext (Z.of_nat d) h) = recent d h.
Proof. exact mkcontext_recent. Qed.
Print Assumptions C15_context_reversed.

(** Older symbols change neither the values nor the resulting state, if the base model itself
    ignores the history. *)
Theorem C15_ignores_older : forall S (M : model S) fresh binary d s a old old' h w,
  ignores_history M -> ctw_depth s = Z.of_nat d -> (0 < d)%nat -> (d <= length h)%nat ->
  ctw_update M fresh binary s a (old ++ h) w = ctw_update M fresh binary s a (old' ++ h) w /\
  ctw_log_predict M fresh binary s a (old ++ h) = ctw_log_predict M fresh binary s a (old' ++ h).
Proof. exact @ctw_ignores_older. Qed.
Print Assumptions C15_ignores_older.
Example C15_ignores_older_ex : ignores_history KTB_model /\ ignores_history KT_model /\
  ignores_history SAD_model /\ ctw_depth (ctw_init ktb_init 2) = Z.of_nat 2.
Proof. exact (conj ktb_ignores (conj kt_ignores (conj sad_ignores eq_refl))). Qed.

(** Depth 0 does not mean "no context": the slice [x[-0:]] is the whole history. *)
Theorem C15_depth0_whole_history : forall h, mkcontext 0 h = h.
Proof. exact mkcontext_zero. Qed.
Print Assumptions C15_depth0_whole_history.

(** Witness: after CTW(0).update(0, [0]), predict(0, [0]) = 3/4 but predict(0, [1]) = 5/8. *)
Theorem C15_depth0_refuted : exists s l0 s1 s2 l1 l2,
  ctw_update KTB_model ktb_init true (ctw_init ktb_init 0) 0 [0%Z] 1 = Ok (s, l0) /\
  recent 0 [0%Z] = recent 0 [1%Z] /\
  ctw_log_predict KTB_model ktb_init true s 0 [0%Z] = Ok (s1, l1) /\
  ctw_log_predict KTB_model ktb_init true s 0 [1%Z] = Ok (s2, l2) /\
  exp l1 = 3 / 4 /\ exp l2 = 5 / 8.
Proof. exact ctw_depth0_refuted. Qed.
Print Assumptions C15_depth0_refuted.
