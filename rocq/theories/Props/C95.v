(** C95: FMN keeps its models apart. *)
From Coq Require Import Lra.
From Verif Require Import Model.KT Spec.FMNObjectsSpec Spec.Prob Spec.FMNSpec Proofs.KTFacts Proofs.KTBinFacts Proofs.FMNObjectsTop Proofs.FMNObjectsEx.
Open Scope R_scope.

(** With the objects of the program, what an FMN returns and raises is what it would if every model in its store, in its tree and in the
    Averagers of this were a value of its own: the copies it makes are enough. *)
Theorem C95_deep : forall S (M : model S) mh fresh calls,
  (do s <- o_init mh (LogStore_class addr) fresh; replies (OFMN_model M mh (LogStore_class addr)) s calls) =
  (do s <- fmn_init (LogStore_class S) mh fresh; replies (FMN_model M (LogStore_class S) mh) s calls).
Proof. exact @logstore_deep. Qed.
Print Assumptions C95_deep.

Theorem C95_deep_uniform : forall S (M : model S) mh fresh calls,
  (do s <- o_init mh (LogStoreUniform_class addr) fresh; replies (OFMN_model M mh (LogStoreUniform_class addr)) s calls) =
  (do s <- fmn_init (LogStoreUniform_class S) mh fresh; replies (FMN_model M (LogStoreUniform_class S) mh) s calls).
Proof. exact @uniform_deep. Qed.
Print Assumptions C95_deep_uniform.

(** A model that is once in the store never changes again. *)
Theorem C95_snapshots : forall S (M : model S) mh fresh calls more s1 s2,
  (do s <- o_init mh (LogStore_class addr) fresh; after (OFMN_model M mh (LogStore_class addr)) s calls) = Ok s1 -> after (OFMN_model M mh (LogStore_class addr)) s1 more = Ok s2 ->
  forall q, In q (ls_iter (f_models (snd s1))) -> exists c, nth_error (fst s1) q = Some (CBase c) /\ nth_error (fst s2) q = Some (CBase c).
Proof. exact @logstore_snapshots. Qed.
Print Assumptions C95_snapshots.

Theorem C95_snapshots_uniform : forall S (M : model S) mh fresh calls more s1 s2,
  (do s <- o_init mh (LogStoreUniform_class addr) fresh; after (OFMN_model M mh (LogStoreUniform_class addr)) s calls) = Ok s1 -> after (OFMN_model M mh (LogStoreUniform_class addr)) s1 more = Ok s2 ->
  forall q, In q (us_iter (f_models (snd s1))) -> exists c, nth_error (fst s1) q = Some (CBase c) /\ nth_error (fst s2) q = Some (CBase c).
Proof. exact @uniform_snapshots. Qed.
Print Assumptions C95_snapshots_uniform.

(** Runs of any length exist, and after the first update the store has the model as it was made and as it was then. *)
Example C95_runs_ex : forall mh evs more, Forall (ok_event [0; 1]%Z any_hist nonneg) (evs ++ more) -> exists s1 s2,
  (do s <- o_init mh (LogStore_class addr) ktb_init; after (OFMN_model KTB_model mh (LogStore_class addr)) s (map Update evs)) = Ok s1 /\
  after (OFMN_model KTB_model mh (LogStore_class addr)) s1 (map Update more) = Ok s2.
Proof. exact snapshot_runs. Qed.
Example C95_ex : exists s1, (do s <- o_init 0 (LogStore_class addr) 0%nat; after (OFMN_model counting 0 (LogStore_class addr)) s [Update (Event 5 [] 1)]) = Ok s1 /\
  ls_iter (f_models (snd s1)) = [4%nat; 0%nat] /\ nth_error (fst s1) 0 = Some (CBase 0%nat) /\ nth_error (fst s1) 4 = Some (CBase 1%nat).
Proof. exact snapshot_ex. Qed.
