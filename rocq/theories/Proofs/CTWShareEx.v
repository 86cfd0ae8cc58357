(** Concrete programs over shared nodes. *)
From Coq Require Import Arith Lra.
From Verif Require Import Model.ModelFast Model.KT Spec.Objects.
From Verif Require Import Proofs.RealFacts Proofs.PyFacts Proofs.CTWTop Proofs.CTWFast.
Open Scope R_scope.

Lemma ktb_fresh_update h : ktb_update ktb_init 1 h 1 = Ok ([/2; /2 + 1], ln (/2 / (/2 + /2))).
Proof.
  unfold ktb_update, ktb_log_predict, ktb_init. rewrite py_get2_0, py_get2_1. cbn [bind].
  rewrite py_div_ok by lra. cbn [bind]. rewrite py_log_ok by (apply Rdiv_lt_0_compat; lra). reflexivity.
Qed.

Definition copy_size_program : list oop := [ONew 1; OCopy 0; OUpdate 1 1 [1]%Z 1].

(** The copy made a node; its size says otherwise, and the original's size counts it. *)
Lemma copy_size_wrong :
  exists w rs w' rs',
    orun (w_new ktb_init) (w_copy (S := ktb)) (w_del (S := ktb)) (w_update KTB_model ktb_init)
      (w_log_predict KTB_model ktb_init) (World [] []) copy_size_program = Ok (w, rs) /\
    deep_run (ctw_init ktb_init) (ctw_update KTB_model ktb_init true) (ctw_log_predict KTB_model ktb_init true)
      copy_size_program = Ok (w', rs') /\
    map (option_map (@o_size)) (w_objs w) = [Some 2; Some 1]%nat /\
    map (option_map (fun s => (ctw_size s, nodes (ctw_tree s)))) w' = [Some (1, 1); Some (2, 2)]%nat.
Proof.
  unfold copy_size_program, deep_run. do 4 eexists. split; [|split; [|split]].
  - cbn -[ktb_update ktb_init]. rewrite ktb_fresh_update. cbn -[ktb_update ktb_init].
    change (Pos.to_nat 1) with 1%nat. cbn -[ktb_update ktb_init].
    rewrite ktb_fresh_update. cbn -[ktb_update ktb_init]. reflexivity.
  - cbn -[ktb_update ktb_init]. unfold ctw_update, ctw_update_with. cbn -[ktb_update ktb_init]. rewrite ktb_fresh_update. cbn -[ktb_update ktb_init].
    change (Pos.to_nat 1) with 1%nat. cbn -[ktb_update ktb_init].
    reflexivity.
  - reflexivity.
  - reflexivity.
Qed.

Definition fast_run (N : nat) (ops : list oop) : result (cworld * list R) :=
  orun (cw_new N) cw_copy cw_del (cw_update N) (cw_log_predict N) (CWorld [] []) ops.

Ltac crun := repeat progress (
  cbn -[c_log c_logsumexp2 log_0_5 INR Pos.to_nat];
  change (Pos.to_nat 1) with 1%nat; change (Pos.to_nat 2) with 2%nat;
  repeat match goal with H : 1 / INR 2 = _ |- _ => rewrite H end;
  repeat match goal with
  | |- context [c_log ?x] => unfold c_log at 1; destruct (Rlt_dec 0 x) as [_|n];
      [|exfalso; apply n; unfold Rdiv; apply Rmult_lt_0_compat; [|apply Rinv_0_lt_compat]; lra]
  end).

(** A prediction by the copy makes a node inside a node of the original. *)
Lemma fast_size_changed :
  exists w rs w' r,
    fast_run 2 [ONew 2; OUpdate 0 0 [0; 0]%Z 1; OCopy 0] = Ok (w, rs) /\
    cw_log_predict 2 w 1 0 [1; 0]%Z = Ok (w', r) /\
    cw_size w 0 = Ok 3%nat /\ cw_size w' 0 = Ok 4%nat.
Proof.
  assert (H: 1 / INR 2 = / 2) by (cbn; lra).
  unfold fast_run. do 4 eexists. split; [|split; [|split]].
  - crun. reflexivity.
  - crun. reflexivity.
  - reflexivity.
  - reflexivity.
Qed.

(** A symbol outside the alphabet indexes outside the counts. *)
Lemma fast_unchecked_symbol : fast_run 2 [ONew 1; OUpdate 0 2 [] 1] = Err OutOfBounds.
Proof. reflexivity. Qed.

Lemma fast_unchecked_byte : fast_run 200 [ONew 1; OUpdate 0 150 [] 1] = Err OutOfBounds.
Proof. reflexivity. Qed.
