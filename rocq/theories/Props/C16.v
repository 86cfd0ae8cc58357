(** C16: CTW.size counts the nodes of the tree, and grows by at most depth per call. *)
From Verif Require Import Model.ModelFast Model.KT Spec.Ops Spec.Objects.
From Verif Require Import Proofs.CTWTop Proofs.CTWShareEx.
Open Scope R_scope.

Theorem C16_size_counts_nodes : forall S (M : model S) fresh binary d ops s s' rs,
  (0 < d)%nat -> ctw_depth s = Z.of_nat d -> ctw_size s = nodes (ctw_tree s) ->
  exec (ctw_update M fresh binary) (ctw_log_predict M fresh binary) s ops = Ok (s', rs) ->
  ctw_size s' = nodes (ctw_tree s') /\
  (ctw_size s <= ctw_size s' <= ctw_size s + d * length ops)%nat.
Proof. exact @ctw_size_nodes. Qed.
Print Assumptions C16_size_counts_nodes.
Example C16_ex : ctw_depth (ctw_init ktb_init 5) = Z.of_nat 5 /\
  ctw_size (ctw_init ktb_init 5) = nodes (ctw_tree (ctw_init ktb_init 5)).
Proof. split; reflexivity. Qed.

(** After copy() the sizes go wrong: the node factories of all copies count for the object the
    first tree was made for. In this program the copy (object 1) has two nodes and size 1, the
    original has one node and size 2. *)
Theorem C16_copy_size_refuted : exists ops w rs w' rs',
  orun (w_new ktb_init) (w_copy (S := ktb)) (w_del (S := ktb)) (w_update KTB_model ktb_init)
    (w_log_predict KTB_model ktb_init) (World [] []) ops = Ok (w, rs) /\
  deep_run (ctw_init ktb_init) (ctw_update KTB_model ktb_init true) (ctw_log_predict KTB_model ktb_init true)
    ops = Ok (w', rs') /\
  map (option_map (@o_size)) (w_objs w) = [Some 2; Some 1]%nat /\
  map (option_map (fun s => (ctw_size s, nodes (ctw_tree s)))) w' = [Some (1, 1); Some (2, 2)]%nat.
Proof. exact (ex_intro _ copy_size_program copy_size_wrong). Qed.
Print Assumptions C16_copy_size_refuted.

(** In the C implementation a log_predict on a copy can change the size of the original. *)
Theorem C16_fast_size_refuted : exists w rs w' r,
  fast_run 2 [ONew 2; OUpdate 0 0 [0; 0]%Z 1; OCopy 0] = Ok (w, rs) /\
  cw_log_predict 2 w 1 0 [1; 0]%Z = Ok (w', r) /\
  cw_size w 0 = Ok 3%nat /\ cw_size w' 0 = Ok 4%nat.
Proof. exact fast_size_changed. Qed.
Print Assumptions C16_fast_size_refuted.
