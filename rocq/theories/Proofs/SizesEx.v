(** Concrete runs. *)
From Coq Require Import Lra.
From Verif Require Import Spec.Sizes Model.KT.
From Verif Require Import Proofs.KTFacts Proofs.KTBinFacts Proofs.PTWTop Proofs.CTWProps Proofs.FMNFacts Proofs.FMNProps Proofs.SizesFacts Proofs.SizesFMN Proofs.SizesCTW.
Open Scope R_scope.

Definition ticks (n : nat) : list event := repeat (Event 1 [] 1) n.
Lemma ticks_ok n : Forall (ok_event [0; 1]%Z any_hist nonneg) (ticks n).
Proof.
  apply Forall_forall. intros e He. apply repeat_spec in He as ->. split; [cbn; tauto|]. split; [exact I|]. unfold nonneg; cbn; lra.
Qed.
Lemma ktb_steps : steps KTB_model [0; 1]%Z any_hist nonneg ktb_inv.
Proof. apply ktb_lawful. Qed.

Lemma ptw_ex : exists s l,
  feed (fun t => ptw_update KTB_model 2 ktb_init) 0 (ptw_init 2 ktb_init) (ticks 24) = Ok (s, l) /\
  length (pbases (pt_tree s)) = 3%nat.
Proof.
  destruct (ptw_feed KTB_model _ _ _ _ ktb_steps (fun _ => ktb_init) (fun _ => ktb_inv_init) 2 (ticks 24) (ticks_ok 24)) as (s & Hs & _).
  exists s, (pt_lp s). split; [exact Hs|]. destruct (ptw_memory KTB_model 2 (fun _ => ktb_init) _ _ _ Hs) as (-> & _). reflexivity.
Qed.

Lemma fmn_ex : exists s0 s l, fmn_init (LogStore_class ktb) 1 ktb_init = Ok s0 /\
  run (FMN_model KTB_model (LogStore_class ktb) 1) s0 (ticks 24) = Ok (s, l) /\
  (length (fmn_bases (LogStore_class ktb) s) <= 24)%nat.
Proof.
  destruct (fmn_total KTB_model (LogStore_class ktb) _ _ _ _ _ (logstore_law _) 1 ktb_steps ktb_init (ticks 24) ktb_inv_init (ticks_ok 24)) as (s0 & s & l & H0 & Hr).
  exists s0, s, l. split; [exact H0|]. split; [exact Hr|].
  exact (fmn_logstore_memory _ _ _ _ _ _ _ _ H0 Hr).
Qed.

Definition three_calls : list op := [OpUpdate 0 [1; 0]%Z 1; OpPredict 0 [1; 0; 1]%Z; OpUpdate 1 [0; 1; 0; 1]%Z 1].
Lemma ctw_ex : exists s rs,
  exec (ctw_update KTB_model ktb_init true) (ctw_log_predict KTB_model ktb_init true) (ctw_init ktb_init (Z.of_nat 2)) three_calls = Ok (s, rs) /\
  ctw_size s = 5%nat.
Proof.
  destruct (ctw_exec_ok KTB_model ktb_init true [0; 1]%Z any_hist nonneg ktb_inv [0; 1]%Z 2 ktb_steps ktb_inv_init) with (ops := three_calls) as (s & rs & H).
  - repeat constructor; cbn; intuition lia.
  - cbn; tauto.
  - intros _. apply incl_refl.
  - lia.
  - unfold nonneg; lra.
  - assert (Hi : forall l : list Z, Forall (fun x => x = 0%Z \/ x = 1%Z) l -> incl l [0; 1]%Z).
    { intros l Hl x Hx. rewrite Forall_forall in Hl. destruct (Hl x Hx) as [-> | ->]; cbn; tauto. }
    unfold three_calls. apply Forall_cons; [|apply Forall_cons; [|apply Forall_cons; [|apply Forall_nil]]]; cbn [ok_opK].
    + split; [cbn; tauto|]. split; [exact I|]. split; [unfold nonneg; lra|apply Hi; repeat (apply Forall_cons; [auto|]); apply Forall_nil].
    + split; [cbn; tauto|]. split; [exact I|]. apply Hi; repeat (apply Forall_cons; [auto|]); apply Forall_nil.
    + split; [cbn; tauto|]. split; [exact I|]. split; [unfold nonneg; lra|apply Hi; repeat (apply Forall_cons; [auto|]); apply Forall_nil].
  - exists s, rs. split; [exact H|]. rewrite (ctw_size_contexts KTB_model ktb_init true 2 three_calls s rs) with (3 := H);
      [vm_compute; reflexivity|lia|repeat constructor].
Qed.
