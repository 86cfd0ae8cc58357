(** The models of z.py give coherent probabilities to bits. *)
From Coq Require Import Lra.
From Verif Require Import Spec.ZipSpec Proofs.ProbFacts Proofs.RealFacts Proofs.KTFacts Proofs.KTBinFacts.
From Verif Require Import Proofs.PTWFacts Proofs.PTWTop Proofs.PTWNorm Proofs.FMNFacts Proofs.FMNProps Proofs.ACLossless.
Open Scope R_scope.

Lemma lawful_coherent {S} (M : model S) okh okw Inv : lawful M [0; 1]%Z okh okw Inv -> okh [] -> okw 1 -> coherent M Inv.
Proof.
  intros HL Hh Hw s Hs.
  destruct (law_step _ _ _ _ _ HL s 0%Z [] 1 Hs ltac:(now left) Hh Hw) as (s0 & l0 & U0 & P0 & I0).
  destruct (law_step _ _ _ _ _ HL s 1%Z [] 1 Hs ltac:(right; now left) Hh Hw) as (s1 & l1 & U1 & P1 & I1).
  exists s0, l0, s1, l1. repeat (split; [assumption|]).
  pose proof (law_norm _ _ _ _ _ HL s [] Hs Hh) as Hn. cbn [map] in Hn. unfold pred_prob in Hn. rewrite P0, P1 in Hn.
  rewrite !Rsum_cons, Rsum_nil in Hn. lra.
Qed.

(** States reached by bits. *)
Definition event_of (b : Z) : event := Event b [] 1.
Definition reached {S} (M : model S) (s0 s : S) : Prop :=
  exists bits l, Forall is_bit bits /\ run M s0 (map event_of bits) = Ok (s, l).

Lemma reached_start {S} (M : model S) s0 : reached M s0 s0.
Proof. exists [], 0. split; [constructor|reflexivity]. Qed.

Lemma bits_ok (okh : list Z -> Prop) (okw : R -> Prop) bits : okh [] -> okw 1 -> Forall is_bit bits -> Forall (ok_event [0; 1]%Z okh okw) (map event_of bits).
Proof.
  intros Hh Hw. induction 1 as [|b bits Hb _ IH]; cbn [map]; constructor; [|exact IH].
  split; [|split; assumption]. cbn. destruct Hb as [-> | ->]; tauto.
Qed.

Lemma reached_coherent {S} (M : model S) s0 :
  (forall bits, Forall is_bit bits -> exists s l, run M s0 (map event_of bits) = Ok (s, l)) ->
  (forall bits s l, Forall is_bit bits -> run M s0 (map event_of bits) = Ok (s, l) ->
    Rsum (map (fun a => upd_prob (m_update M) s a [] 1) [0; 1]%Z) = 1) ->
  coherent M (reached M s0).
Proof.
  intros Ht Hn s (bits & l & Hb & Hr).
  assert (Hstep : forall b, is_bit b -> exists s' l', m_update M s b [] 1 = Ok (s', l') /\ reached M s0 s').
  { intros b Hbit. destruct (Ht (bits ++ [b])) as (s' & l' & Hr').
    { apply Forall_app. split; [exact Hb|]. constructor; [exact Hbit|constructor]. }
    rewrite map_app, (run_app M) in Hr'. rewrite Hr in Hr'. cbn [bind map run event_of ev_sym ev_hist ev_wt] in Hr'.
    destruct (m_update M s b [] 1) as [[s2 l2]|] eqn:E; [|discriminate]. exists s2, l2. split; [reflexivity|].
    exists (bits ++ [b]), (l + l2). split.
    - apply Forall_app. split; [exact Hb|]. constructor; [exact Hbit|constructor].
    - rewrite map_app. apply (run_snoc M _ _ (event_of b) _ _ _ _ Hr E). }
  destruct (Hstep 0%Z ltac:(now left)) as (a0 & l0 & U0 & R0). destruct (Hstep 1%Z ltac:(now right)) as (a1 & l1 & U1 & R1).
  exists a0, l0, a1, l1. repeat (split; [assumption|]).
  pose proof (Hn bits s l Hb Hr) as H. cbn [map] in H. unfold upd_prob in H. rewrite U0, U1 in H.
  rewrite !Rsum_cons, Rsum_nil in H. lra.
Qed.

Lemma feed_const {T} (M : model T) evs : forall t s, feed (fun _ => m_update M) t s evs = run M s evs.
Proof.
  induction evs as [|e evs IH]; intros t s; [reflexivity|]. cbn [feed run].
  destruct (m_update M s (ev_sym e) (ev_hist e) (ev_wt e)) as [[s1 l1]|]; [|reflexivity]. cbn [bind]. now rewrite IH.
Qed.

Lemma ptw_coherent {S} (M : model S) okh okw Inv m fresh : lawful M [0; 1]%Z okh okw Inv -> okh [] -> okw 1 -> Inv fresh ->
  coherent (PTW_model M m fresh) (reached (PTW_model M m fresh) (ptw_init m fresh)).
Proof.
  intros HL Hh Hw Hf. apply reached_coherent.
  - intros bits Hb. destruct (ptw_feed M [0; 1]%Z okh okw Inv (law_step _ _ _ _ _ HL) (fun _ => fresh) (fun _ => Hf) m
      (map event_of bits) (bits_ok okh okw bits Hh Hw Hb)) as (s & Hs & _).
    exists s, (pt_lp s). rewrite <- Hs. symmetry. apply (feed_const (PTW_model M m fresh)).
  - intros bits s l Hb Hr. rewrite <- (feed_const (PTW_model M m fresh) _ 0%nat) in Hr.
    apply (ptw_update_norm M [0; 1]%Z okh okw Inv HL (fun _ => fresh) (fun _ => Hf) m (map event_of bits) s l [] 1
      (bits_ok okh okw bits Hh Hw Hb) Hh Hw Hr).
Qed.

Lemma fmn_coherent {S T} (M : model S) (C : store_class T) TI okh okw Inv m fresh s0 :
  store_law C TI -> lawful M [0; 1]%Z okh okw Inv -> okh [] -> okw 1 -> Inv fresh -> fmn_init C m fresh = Ok s0 ->
  coherent (FMN_model M C m) (reached (FMN_model M C m) s0).
Proof.
  intros HC HL Hh Hw Hf H0. apply reached_coherent.
  - intros bits Hb. destruct (fmn_total M C TI [0; 1]%Z okh okw Inv HC m (law_step _ _ _ _ _ HL) fresh (map event_of bits) Hf
      (bits_ok okh okw bits Hh Hw Hb)) as (s1 & s & l & H1 & Hr).
    rewrite H0 in H1. injection H1 as <-. exists s, l. exact Hr.
  - intros bits s l Hb Hr.
    exact (fmn_update_norm M C TI [0; 1]%Z okh okw Inv HC m HL fresh (map event_of bits) s0 s l [] 1 Hf
      (bits_ok okh okw bits Hh Hw Hb) Hh Hw H0 Hr).
Qed.

Lemma one_ok : nonneg 1. Proof. unfold nonneg. lra. Qed.

Lemma used_coherent name S (M : model S) m : used name S M m -> exists Inv, coherent M Inv /\ Inv m.
Proof.
  intros H. destruct H as [| |s Hs].
  - exists (kt_inv [0; 1]%Z). split; [apply (lawful_coherent _ any_hist nonneg); [apply kt_lawful|exact I|apply one_ok]|apply kt_inv_init; repeat constructor; cbn; intuition discriminate].
  - eexists. split; [apply (ptw_coherent KTB_model any_hist nonneg ktb_inv); [apply ktb_lawful|exact I|apply one_ok|apply ktb_inv_init]|apply reached_start].
  - eexists. split; [apply (fmn_coherent KTB_model (LogStore_class ktb) (fun s => s <> []) any_hist nonneg ktb_inv 10 ktb_init s);
      [apply logstore_law|apply ktb_lawful|exact I|apply one_ok|apply ktb_inv_init|exact Hs]|apply reached_start].
Qed.

Lemma fmn_made : exists s, fmn_init (LogStore_class ktb) 10 ktb_init = Ok s.
Proof.
  destruct (fmn_total KTB_model (LogStore_class ktb) (fun s => s <> []) [0; 1]%Z any_hist nonneg ktb_inv
    (logstore_law ktb) 10 (law_step _ _ _ _ _ ktb_lawful) ktb_init [] ktb_inv_init (Forall_nil _)) as (s & _ & _ & H & _).
  now exists s.
Qed.
