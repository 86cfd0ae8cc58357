(** C12: CTW is a mixture over all context trees and competes with each of them. *)
From Coq Require Import Lra.
From Verif Require Import Model.CTW Model.KT Spec.CTWSpec Proofs.CTWMixture Proofs.CTWProps.
From Verif Require Props.C11.
Open Scope R_scope.

(** The total probability is the 2^-cost weighted sum over all trees of depth at most D. *)
Theorem C12_ctw_mixture : forall S (M : model S) fresh binary A okh okw Inv K D,
  steps M A okh okw Inv -> Inv fresh -> NoDup K -> In 0%Z K ->
  (binary = true -> incl K [0; 1]%Z) -> (0 < D)%nat ->
  forall evs, Forall (fun e => ok_event A okh okw e /\ incl (ev_hist e) K) evs ->
  exists s l, run (CTW_model M fresh binary) (ctw_init fresh (Z.of_nat D)) evs = Ok (s, l) /\
    exp l = Rsum (map (fun t => (/ 2) ^ cost D t * tree_prob M fresh (recent D) K [] t evs)
                      (all_trees K D)).
Proof. exact @ctw_total_mixture. Qed.
Print Assumptions C12_ctw_mixture.

(** [all_trees] lists exactly the trees of depth at most D, each once; the weights sum to 1. *)
Theorem C12_all_trees : forall K d t, In t (all_trees K d) <-> is_tree K d t.
Proof. exact all_trees_spec. Qed.
Print Assumptions C12_all_trees.
Theorem C12_all_trees_nodup : forall K d, NoDup (all_trees K d).
Proof. exact all_trees_nodup. Qed.
Print Assumptions C12_all_trees_nodup.
Theorem C12_tree_prior : forall S (M : model S) (fresh : S) (ctx : list Z -> list Z) K d,
  Rsum (map (fun t => (/ 2) ^ cost d t) (all_trees K d)) = 1.
Proof. exact @tree_prior. Qed.
Print Assumptions C12_tree_prior.

(** Log loss at most that of any context tree plus cost * ln 2. *)
Theorem C12_ctw_regret : forall S (M : model S) fresh binary A okh okw Inv K D,
  steps M A okh okw Inv -> Inv fresh -> NoDup K -> In 0%Z K ->
  (binary = true -> incl K [0; 1]%Z) -> (0 < D)%nat ->
  forall evs t s l, Forall (fun e => ok_event A okh okw e /\ incl (ev_hist e) K) evs ->
  is_tree K D t ->
  run (CTW_model M fresh binary) (ctw_init fresh (Z.of_nat D)) evs = Ok (s, l) ->
  - l <= - ln (tree_prob M fresh (recent D) K [] t evs) + INR (cost D t) * ln 2.
Proof. exact @ctw_total_regret. Qed.
Print Assumptions C12_ctw_regret.

(** [C11_ex] meets the hypotheses; a tree of depth 2 with three leaves costs 5 bits at D = 3
    and its evidence is the product over its leaves. *)
Definition C12_tree : ctree := Branch [Leaf; Branch [Leaf; Leaf]].
Example C12_ex : is_tree [0; 1]%Z 3 C12_tree /\ cost 3 C12_tree = 5%nat /\
  forall evs, tree_prob KTB_model ktb_init (recent 3) [0; 1]%Z [] C12_tree evs =
    node_prob KTB_model ktb_init (recent 3) [0]%Z evs *
    (node_prob KTB_model ktb_init (recent 3) [1; 0]%Z evs *
     (node_prob KTB_model ktb_init (recent 3) [1; 1]%Z evs * 1) * 1).
Proof.
  split; [repeat constructor|]. split; [reflexivity|]. intros evs. reflexivity.
Qed.
