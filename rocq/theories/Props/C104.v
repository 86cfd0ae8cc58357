(** C104: how many base models and nodes the composite models hold. *)
From Verif Require Import Spec.SizesKT Model.KT.
From Verif Require Import Proofs.SizesFacts Proofs.SizesFMN Proofs.SizesCTW Proofs.SizesEx Proofs.SizesCTWKT.
Open Scope R_scope.

(** PTW with minimum partition length [2 ^ m]: after n symbols, one base model more than the
    binary digits 1 of (n - 1) / 2 ^ m. *)
Theorem C104_ptw : forall S (M : model S) m (mk : nat -> S) evs s l,
  feed (fun t => ptw_update M m (mk t)) 0 (ptw_init m (mk 0%nat)) evs = Ok (s, l) ->
  (length (pbases (pt_tree s)) = 1 + ones ((length evs - 1) / 2 ^ m) /\
   length (pbases (pt_tree s)) <= 2 + Nat.log2 ((length evs - 1) / 2 ^ m))%nat.
Proof. exact @ptw_memory. Qed.
Print Assumptions C104_ptw.

Theorem C104_ptw_fixed_length : forall S (M : model S) m (mk : nat -> S) len evs s l,
  feed (fun t => ptwf_update M m (mk t)) 0 (ptwf_init m len (mk 0%nat)) evs = Ok (s, l) ->
  (length (pbases (pf_tree s)) = 1 + ones ((length evs - 1) / 2 ^ m))%nat.
Proof. exact @ptwf_memory. Qed.
Print Assumptions C104_ptw_fixed_length.

(** The PTW of ctw.py, whose partitions may have length 1. *)
Theorem C104_ctw_ptw : forall S (Q : probseq S) fresh H evs s l,
  run (QPTW_model Q fresh) (qptw_init fresh H) evs = Ok (s, l) ->
  (length (qbases (qp_tree s)) = 1 + ones (length evs - 1))%nat.
Proof. exact @qptw_memory. Qed.
Print Assumptions C104_ctw_ptw.

(** The work of one call of update: each base model afterwards is a base model from before, or
    the new one, updated once; no model is updated twice and no other is made. *)
Theorem C104_ptw_work : forall S (M : model S) m n fresh a h w n',
  pnode_update M m fresh n a h w = Ok n' ->
  exists k new, (new = [] \/ new = [fresh]) /\ (k <= length (pbases n))%nat /\
    Forall2 (fun b b' => exists l, m_update M b a h w = Ok (b', l)) (firstn k (pbases n) ++ new) (pbases n').
Proof. exact @bases_update. Qed.
Print Assumptions C104_ptw_work.

Example C104_ptw_ex : exists s l,
  feed (fun t => ptw_update KTB_model 2 ktb_init) 0 (ptw_init 2 ktb_init) (ticks 24) = Ok (s, l) /\
  length (pbases (pt_tree s)) = 3%nat.
Proof. exact ptw_ex. Qed.

(** FMN: in the store and in the averages of the tree together. *)
Theorem C104_fmn_logstore : forall S (M : model S) m fresh evs s0 s l,
  fmn_init (LogStore_class S) m fresh = Ok s0 ->
  run (FMN_model M (LogStore_class S) m) s0 evs = Ok (s, l) ->
  (length (fmn_bases (LogStore_class S) s) <=
   (Nat.log2 (1 + length evs / 2 ^ m) + 3) * (Nat.log2 (1 + length evs / 2 ^ m) + 1))%nat.
Proof. exact @fmn_logstore_memory. Qed.
Print Assumptions C104_fmn_logstore.

Theorem C104_fmn_uniform : forall S (M : model S) m fresh evs s0 s l,
  fmn_init (LogStoreUniform_class S) m fresh = Ok s0 ->
  run (FMN_model M (LogStoreUniform_class S) m) s0 evs = Ok (s, l) ->
  (length (fmn_bases (LogStoreUniform_class S) s) <=
   (Nat.log2 (1 + length evs / 2 ^ m) + 3) * (Nat.log2 (1 + length evs / 2 ^ m) + 2))%nat.
Proof. exact @fmn_uniform_memory. Qed.
Print Assumptions C104_fmn_uniform.

Example C104_fmn_ex : exists s0 s l, fmn_init (LogStore_class ktb) 1 ktb_init = Ok s0 /\
  run (FMN_model KTB_model (LogStore_class ktb) 1) s0 (ticks 24) = Ok (s, l) /\
  (length (fmn_bases (LogStore_class ktb) s) <= 24)%nat.
Proof. exact fmn_ex. Qed.

(** CTW of depth [d]: one node for each different context of at most [d] symbols that update or
    log_predict has met, the empty one included. *)
Theorem C104_ctw : forall S (M : model S) fresh binary d ops s rs, (0 < d)%nat ->
  Forall (fun o => Forall (fun k => child_key binary k = Ok k) (op_hist o)) ops ->
  exec (ctw_update M fresh binary) (ctw_log_predict M fresh binary) (ctw_init fresh (Z.of_nat d)) ops = Ok (s, rs) ->
  ctw_size s = distinct ([] :: contexts d ops).
Proof. exact @ctw_size_contexts. Qed.
Print Assumptions C104_ctw.

(** So the tree is never larger than the full tree over the symbols [K] of the histories. *)
Theorem C104_ctw_most : forall S (M : model S) fresh binary d ops s rs K, (0 < d)%nat ->
  (2 <= length K)%nat -> In 0%Z K -> (forall k, In k K -> child_key binary k = Ok k) ->
  Forall (fun o => incl (op_hist o) K) ops ->
  exec (ctw_update M fresh binary) (ctw_log_predict M fresh binary) (ctw_init fresh (Z.of_nat d)) ops = Ok (s, rs) ->
  ((length K - 1) * ctw_size s + 1 <= length K ^ (d + 1))%nat.
Proof. exact @ctw_size_most. Qed.
Print Assumptions C104_ctw_most.

Example C104_ctw_ex : exists s rs,
  exec (ctw_update KTB_model ktb_init true) (ctw_log_predict KTB_model ktb_init true)
    (ctw_init ktb_init (Z.of_nat 2)) three_calls = Ok (s, rs) /\ ctw_size s = 5%nat.
Proof. exact ctw_ex. Qed.

(** The same of CTW_KT. *)
Theorem C104_ctwkt : forall d ops s rs, (0 < d)%nat -> Forall (fun o => incl (op_hist o) [0; 1]%Z) ops ->
  exec ctwkt_update ctwkt_log_predict (ctwkt_init (Z.of_nat d)) ops = Ok (s, rs) ->
  knodes (ck_tree s) = distinct ([] :: contexts d ops).
Proof. exact ctwkt_size_contexts. Qed.
Print Assumptions C104_ctwkt.

Theorem C104_ctwkt_most : forall d ops s rs, (0 < d)%nat -> Forall (fun o => incl (op_hist o) [0; 1]%Z) ops ->
  exec ctwkt_update ctwkt_log_predict (ctwkt_init (Z.of_nat d)) ops = Ok (s, rs) ->
  (knodes (ck_tree s) + 1 <= 2 ^ (d + 1))%nat.
Proof. exact ctwkt_size_most. Qed.
Print Assumptions C104_ctwkt_most.

Example C104_ctwkt_ex : exists s rs,
  exec ctwkt_update ctwkt_log_predict (ctwkt_init (Z.of_nat 2)) three_calls = Ok (s, rs) /\ knodes (ck_tree s) = 5%nat.
Proof. exact ctwkt_ex. Qed.
