(** C60: the CTW of ctw.py, which keeps its own history. [Q] is the class of the base models,
    whose log_prob attribute update must increase by what it returns; [fresh] is what the factory
    returns. [recent D h] is the last D symbols of h, oldest first, padded with zeros. *)
From Coq Require Import Lra.
From Verif Require Import Model.CtwCTW Spec.CtwSpec Spec.CTWSpec Proofs.CtwCTWTop Proofs.CtwKTFacts Proofs.KTFacts.
Open Scope R_scope.
Notation no_hist := (fun h : list Z => h = []).
Notation adds_up Q := (forall s a h w s' l, m_update (q_model Q) s a h w = Ok (s', l) -> q_lp Q s' = q_lp Q s + l).
Notation updC Q fresh D := (qobj_update Q fresh (mkcontext (Z.of_nat D))).
Notation prdC Q fresh D := (qobj_log_predict Q fresh (mkcontext (Z.of_nat D))).
Notation initC fresh D := (qobj_init fresh (Z.of_nat D)).

(** Any calls give the same values, or the same exception, as model.py's CTW given the symbols so
    far as history. *)
Theorem C60_same_as_model : forall S (Q : probseq S), adds_up Q -> forall fresh, q_lp Q fresh = 0 ->
  forall D ops, (0 < D)%nat ->
  shown (hexec (updC Q fresh D) (prdC Q fresh D) (initC fresh D) ops) =
  shown (exec (ctw_update (without_history (q_model Q)) fresh false)
              (ctw_log_predict (without_history (q_model Q)) fresh false)
              (ctw_init fresh (Z.of_nat D)) (with_history [] ops)).
Proof. exact @same_as_model. Qed.
Print Assumptions C60_same_as_model.

(** Likewise when use_history hands it a history before each call. *)
Theorem C60_external_history : forall S (Q : probseq S), adds_up Q -> forall fresh, q_lp Q fresh = 0 ->
  forall D ops, (0 < D)%nat ->
  shown (ext_exec (fun s h => use_history s h false) (updC Q fresh D) (prdC Q fresh D) (initC fresh D) ops) =
  shown (exec (ctw_update (without_history (q_model Q)) fresh false)
              (ctw_log_predict (without_history (q_model Q)) fresh false)
              (ctw_init fresh (Z.of_nat D)) ops).
Proof. exact @external_same. Qed.
Print Assumptions C60_external_history.

(** reset_history between sequences: each starts from the empty history, the tree is kept. *)
Theorem C60_reset_history : forall S (Q : probseq S), adds_up Q -> forall fresh, q_lp Q fresh = 0 ->
  forall D eps, (0 < D)%nat ->
  shown (episodes reset_history (updC Q fresh D) (prdC Q fresh D) (initC fresh D) eps) =
  shown (exec (ctw_update (without_history (q_model Q)) fresh false)
              (ctw_log_predict (without_history (q_model Q)) fresh false)
              (ctw_init fresh (Z.of_nat D)) (flat_map (with_history []) eps)).
Proof. exact @episodes_as_model. Qed.
Print Assumptions C60_reset_history.

(** The probability of a sequence is the context-tree-weighting recursion, at every depth including
    0 (where model.py raises), and the history is the sequence. *)
Theorem C60_recursion : forall S (Q : probseq S), adds_up Q -> forall fresh, q_lp Q fresh = 0 ->
  forall D A okw Inv K, steps (q_model Q) A no_hist okw Inv -> Inv fresh -> NoDup K -> In 0%Z K -> incl A K ->
  forall sw, Forall (fun p => In (fst p) A /\ okw (snd p)) sw ->
  exists s rs, hexec (updC Q fresh D) (prdC Q fresh D) (initC fresh D) (updates sw) = Ok (s, rs) /\
    exp (Rsum rs) = ctw_prob (without_history (q_model Q)) fresh (recent D) K D [] (events_after [] sw) /\
    qo_history s = map fst sw.
Proof. exact @own_history_recursion. Qed.
Print Assumptions C60_recursion.

(** After any calls: log_predict says what update will return, and the predictions sum to one. *)
Theorem C60_log_predict : forall S (Q : probseq S), adds_up Q -> forall fresh, q_lp Q fresh = 0 ->
  forall D A okw Inv K, steps (q_model Q) A no_hist okw Inv -> Inv fresh -> NoDup K -> In 0%Z K -> incl A K -> okw 1 ->
  forall ops, Forall (ok_hop A okw) ops ->
  exists s rs, hexec (updC Q fresh D) (prdC Q fresh D) (initC fresh D) ops = Ok (s, rs) /\
    forall a w, In a A -> okw w -> exists s' s'' l, updC Q fresh D s a w = Ok (s', l) /\ prdC Q fresh D s a = Ok (s'', l).
Proof. exact @own_history_agrees. Qed.
Print Assumptions C60_log_predict.

Theorem C60_distribution : forall S (Q : probseq S), adds_up Q -> forall fresh, q_lp Q fresh = 0 ->
  forall D A okw Inv K, steps (q_model Q) A no_hist okw Inv -> Inv fresh -> NoDup K -> In 0%Z K -> incl A K -> okw 1 ->
  forall ops, lawful (q_model Q) A no_hist okw Inv -> Forall (ok_hop A okw) ops ->
  exists s rs, hexec (updC Q fresh D) (prdC Q fresh D) (initC fresh D) ops = Ok (s, rs) /\
    Rsum (map (fun a => match prdC Q fresh D s a with Ok (_, l) => exp l | Err _ => 0 end) A) = 1.
Proof. exact @own_history_distribution. Qed.
Print Assumptions C60_distribution.

(** Predicting (which creates nodes) changes no value returned later. *)
Theorem C60_transparent : forall S (Q : probseq S), adds_up Q -> forall fresh, q_lp Q fresh = 0 ->
  forall D A okw Inv K, steps (q_model Q) A no_hist okw Inv -> Inv fresh -> NoDup K -> In 0%Z K -> incl A K -> okw 1 ->
  forall ops s rs ops' rs', Forall (ok_hop A okw) ops ->
  hexec (updC Q fresh D) (prdC Q fresh D) (initC fresh D) ops = Ok (s, rs) -> hwithout ops rs ops' rs' ->
  exists s', hexec (updC Q fresh D) (prdC Q fresh D) (initC fresh D) ops' = Ok (s', rs').
Proof. exact @own_transparent. Qed.
Print Assumptions C60_transparent.

(** update_seq is the updates one by one and returns the sum of what they return. *)
Theorem C60_update_seq : forall S (Q : probseq S), adds_up Q -> forall fresh, q_lp Q fresh = 0 ->
  forall D A okw Inv K, steps (q_model Q) A no_hist okw Inv -> Inv fresh -> NoDup K -> In 0%Z K -> incl A K -> okw 1 ->
  forall ops seq w, Forall (ok_hop A okw) ops -> incl seq A -> okw w ->
  exists s rs0 s' rs, hexec (updC Q fresh D) (prdC Q fresh D) (initC fresh D) ops = Ok (s, rs0) /\
    qobj_update_seq Q fresh (mkcontext (Z.of_nat D)) s seq w = Ok (s', Rsum rs) /\
    hexec (updC Q fresh D) (prdC Q fresh D) s (map (fun a => HUpdate a w) seq) = Ok (s', rs).
Proof. exact @own_update_seq. Qed.
Print Assumptions C60_update_seq.

(** log_predict_seq is the sum of the predictions in the growing context, without learning from
    the sequence; the object afterwards answers as before. *)
Theorem C60_log_predict_seq : forall S (Q : probseq S), adds_up Q -> forall fresh, q_lp Q fresh = 0 ->
  forall D A okw Inv K, steps (q_model Q) A no_hist okw Inv -> Inv fresh -> NoDup K -> In 0%Z K -> incl A K -> okw 1 ->
  forall ops seq, Forall (ok_hop A okw) ops -> incl seq A ->
  exists s rs0 s' rs, hexec (updC Q fresh D) (prdC Q fresh D) (initC fresh D) ops = Ok (s, rs0) /\
    qobj_log_predict_seq Q fresh (mkcontext (Z.of_nat D)) s seq = Ok (s', Rsum rs) /\
    shown (ext_exec (fun s h => use_history s h false) (updC Q fresh D) (prdC Q fresh D) s
             (predict_ops (updated ops) seq)) = Ok rs /\
    forall more, Forall (ok_hop A okw) more ->
      shown (hexec (updC Q fresh D) (prdC Q fresh D) s' more) = shown (hexec (updC Q fresh D) (prdC Q fresh D) s more).
Proof. exact @own_predict_seq. Qed.
Print Assumptions C60_log_predict_seq.

(** Depth 2 over ctw.KT; updates and predictions mixed, one of them removed. *)
Example C60_ex : let ops := [HUpdate 1 1; HPredict 0; HUpdate 0 (/ 2); HPredict 1; HUpdate 0 1]%Z in
  adds_up QKT_class /\ q_lp QKT_class (qkt_init [0; 1]%Z) = 0 /\ (0 < 2)%nat /\
  steps (q_model QKT_class) [0; 1]%Z no_hist nonneg (qkt_inv [0; 1]%Z) /\
  lawful (q_model QKT_class) [0; 1]%Z no_hist nonneg (qkt_inv [0; 1]%Z) /\
  qkt_inv [0; 1]%Z (qkt_init [0; 1]%Z) /\ NoDup [0; 1]%Z /\ incl [0; 1]%Z [0; 1]%Z /\ nonneg 1 /\
  Forall (fun p => In (fst p) [0; 1]%Z /\ nonneg (snd p)) [(1%Z, 1); (0%Z, / 2); (0%Z, 1)] /\
  Forall (ok_hop [0; 1]%Z nonneg) ops /\ incl [1; 1; 0]%Z [0; 1]%Z /\
  forall r1 r2 r3 r4 r5, hwithout ops [r1; r2; r3; r4; r5]
     [HUpdate 1 1; HUpdate 0 (/ 2); HPredict 1; HUpdate 0 1]%Z [r1; r3; r4; r5].
Proof.
  intros ops. assert (HA : NoDup [0; 1]%Z) by (repeat constructor; cbn; intuition lia).
  split; [exact qkt_law|]. split; [reflexivity|]. split; [lia|]. split; [apply qkt_steps|]. split; [apply qkt_lawful|].
  split; [apply qkt_inv_init; [exact HA|discriminate]|]. split; [exact HA|]. split; [apply incl_refl|].
  split; [unfold nonneg; lra|]. split; [|split; [|split]].
  - repeat apply Forall_cons; try apply Forall_nil; unfold nonneg; cbn; intuition lra.
  - unfold ops. repeat apply Forall_cons; try apply Forall_nil; unfold nonneg; cbn; intuition lra.
  - intros x Hx. cbn in *. tauto.
  - intros. unfold ops. apply hwithout_keep, hwithout_drop, hwithout_keep, hwithout_keep, hwithout_keep, hwithout_nil.
Qed.
