(** C20: PTWFixedLength computes the partition tree weighting recursion. [mk t] is the model
    that the factory returns when called during update number t; [m] is the minimal height. *)
From Coq Require Import Lra.
From Verif Require Import Model.PTW Model.KT Spec.PTWSpec Proofs.PTWTop Proofs.PTWProps.
From Verif Require Import Proofs.KTFacts Proofs.KTBinFacts Proofs.PTWPredict.
Open Scope R_scope.

Theorem C20_ptw_fixed_recursion : forall S (M : model S) A okh okw Inv,
  steps M A okh okw Inv -> forall mk, (forall t, Inv (mk t)) -> forall m len evs,
  Forall (ok_event A okh okw) evs -> (length evs <= len)%nat ->
  exists s l, feed (fun t => ptwf_update M m (mk t)) 0 (ptwf_init m len (mk 0%nat)) evs = Ok (s, l) /\
    exp l = ptw_prob M mk m (fixed_height_of len - m) 0 evs.
Proof. exact @ptwf_recursion. Qed.
Print Assumptions C20_ptw_fixed_recursion.

(** The height is the least one that holds [len] symbols. *)
Theorem C20_fixed_height : forall n, (0 < n)%nat -> (n <= 2 ^ fixed_height_of n)%nat /\
  forall k, (n <= 2 ^ k)%nat -> (fixed_height_of n <= k)%nat.
Proof. exact fixed_height_up. Qed.
Print Assumptions C20_fixed_height.

(** The model's promotion step is the literal one: the fresh right child is updated like any
    right child. *)
Theorem C20_promotion_literal : forall S (M : model S) m fresh n x h w,
  partition_is_complete n = true ->
  pnode_update M m fresh n x h w =
  (let '(PNode base height count blp llp lp rch) := n in
   do (base', l) <- m_update M base x h w;
   do r' <- pnode_update M m fresh (new_pnode m fresh) x h w;
   let rlp := lift (Datatypes.S height - p_height r' - 1) (p_blp r') (p_lp r') in
   Ok (PNode base' (Datatypes.S height) (count + 1) (blp + l) lp
             (log_0_5 + logsumexp2 (blp + l) (lp + rlp)) (Some r'))).
Proof. exact @promotion_literal. Qed.
Print Assumptions C20_promotion_literal.

(** PTWFixedLength(6) over KTBinary, minimum partition length 2, on five symbols. *)
Example C20_ex :
  steps KTB_model [0; 1]%Z any_hist nonneg ktb_inv /\ (forall t : nat, ktb_inv ktb_init) /\
  Forall (ok_event [0; 1]%Z any_hist nonneg)
    [Event 1 [] 1; Event 0 [] 1; Event 0 [] 1; Event 1 [] 1; Event 0 [] 1] /\
  fixed_height_of 6 = 3%nat.
Proof.
  split; [apply ktb_lawful|]. split; [intros _; apply ktb_inv_init|]. split; [|reflexivity].
  repeat apply Forall_cons; try apply Forall_nil; unfold ok_event, any_hist, nonneg; cbn; intuition lra.
Qed.
