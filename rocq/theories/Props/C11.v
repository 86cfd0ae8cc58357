(** C11: CTW computes the context-tree weighting recursion. [A]: alphabet of the base model,
    [K]: the symbols that occur in histories (with 0 for padding). *)
From Coq Require Import Lra.
From Verif Require Import Model.CTW Model.KT Spec.CTWSpec Proofs.CTWProps.
From Verif Require Import Proofs.KTFacts Proofs.KTBinFacts.
Open Scope R_scope.

Theorem C11_ctw_recursion : forall S (M : model S) fresh binary A okh okw Inv K D,
  steps M A okh okw Inv -> Inv fresh -> NoDup K -> In 0%Z K ->
  (binary = true -> incl K [0; 1]%Z) -> (0 < D)%nat ->
  forall evs, Forall (fun e => ok_event A okh okw e /\ incl (ev_hist e) K) evs ->
  exists s l, run (CTW_model M fresh binary) (ctw_init fresh (Z.of_nat D)) evs = Ok (s, l) /\
    ctw_inv M fresh A okh okw K D s /\
    exp l = ctw_prob M fresh (recent D) K D [] evs.
Proof. exact @ctw_recursion. Qed.
Print Assumptions C11_ctw_recursion.

(** CTW(depth=3) with its defaults (KTBinary, binary contexts). *)
Example C11_ex :
  steps KTB_model [0; 1]%Z any_hist nonneg ktb_inv /\ ktb_inv ktb_init /\
  Forall (fun e => ok_event [0; 1]%Z any_hist nonneg e /\ incl (ev_hist e) [0; 1]%Z)
    [Event 1 [] 1; Event 0 [1%Z] 1; Event 0 [1; 0]%Z 2; Event 1 [1; 0; 0]%Z 1].
Proof.
  split; [apply ktb_lawful|]. split; [apply ktb_inv_init|].
  repeat apply Forall_cons; try apply Forall_nil;
    (split; [repeat split; unfold nonneg; cbn; try tauto; lra|]); intros x; cbn; tauto.
Qed.
