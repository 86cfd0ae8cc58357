(** C18: Copies of a CTW are independent despite shared nodes: any program that makes, copies,
    deletes, updates and queries any number of objects gets the values and exceptions it would
    get if every copy were deep. *)
From Coq Require Import Lra.
From Verif Require Import Model.CTWHeap Model.KT Spec.Objects.
From Verif Require Import Proofs.CTWShare Proofs.CTWKTShare.
Open Scope R_scope.

Theorem C18_ctw_copies_deep : forall S (M : model S) (fresh : S) ops,
  returned (orun (w_new fresh) (w_copy (S := S)) (w_del (S := S)) (w_update M fresh)
              (w_log_predict M fresh) (World [] []) ops) =
  returned (deep_run (ctw_init fresh) (ctw_update M fresh true) (ctw_log_predict M fresh true) ops).
Proof. exact @ctw_copies. Qed.
Print Assumptions C18_ctw_copies_deep.

Theorem C18_ctwkt_copies_deep : forall ops,
  returned (orun kw_new kw_copy kw_del kw_update kw_log_predict (KWorld [] []) ops) =
  returned (deep_run ctwkt_init ctwkt_update ctwkt_log_predict ops).
Proof. exact ctwkt_copies. Qed.
Print Assumptions C18_ctwkt_copies_deep.

(** A program whose two objects share a node, with the node counted twice, while one of them is
    about to be updated through it. *)
Example C18_ex : exists w c,
  (do (w, _) <- orun kw_new kw_copy kw_del kw_update kw_log_predict
                  (KWorld [Some (Cell (CData [/2; /2] 0 0 0) [Some 1%nat; None] 1);
                           Some (Cell (CData [/2; /2] 0 0 0) [None; None] 1)] [Some (1%Z, 0%nat)]) [OCopy 0];
   Ok w) = Ok w /\
  nth_error (kw_heap w) 1 = Some (Some c) /\ c_rc c = 2%nat /\ kw_objs w = [Some (1%Z, 0%nat); Some (1%Z, 2%nat)].
Proof. do 2 eexists. repeat split; reflexivity. Qed.
