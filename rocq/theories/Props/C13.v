(** C13: CTW predictions form a probability distribution. *)
From Coq Require Import Lra.
From Verif Require Import Model.CTW Model.KT Spec.CTWSpec Proofs.CTWProps.
From Verif Require Import Proofs.KTFacts Proofs.KTBinFacts.
From Verif Require Props.C11.
Open Scope R_scope.

Theorem C13_ctw_distribution : forall S (M : model S) fresh binary A okh okw Inv K D,
  steps M A okh okw Inv -> Inv fresh -> NoDup K -> In 0%Z K ->
  (binary = true -> incl K [0; 1]%Z) -> (0 < D)%nat ->
  forall evs h, lawful M A okh okw Inv -> okw 1 ->
  Forall (fun e => ok_event A okh okw e /\ incl (ev_hist e) K) evs -> okh h -> incl h K ->
  exists s l, run (CTW_model M fresh binary) (ctw_init fresh (Z.of_nat D)) evs = Ok (s, l) /\
    (forall a, In a A -> exists p, predict (CTW_model M fresh binary) s a h = Ok p /\ 0 < p) /\
    Rsum (map (fun a => pred_prob (CTW_model M fresh binary) s a h) A) = 1.
Proof. exact @ctw_distribution. Qed.
Print Assumptions C13_ctw_distribution.
Example C13_ex : lawful KTB_model [0; 1]%Z any_hist nonneg ktb_inv /\ nonneg 1.
Proof. split; [apply ktb_lawful|unfold nonneg; lra]. Qed.
