(** C62: FMN of ctw.py. [Q] is the class of the base models, [reset] the assignment log_prob = 0
    made by the Averager, [C] the store and [order] the order in which the set of the retained
    models is iterated, any permutation, which may differ from call to call. *)
From Coq Require Import Lra Lia Permutation.
From Verif Require Import Model.CtwFMN Model.KT Model.Stores Spec.CtwFMNSpec Spec.PTWSpec.
From Verif Require Import Proofs.FMNFacts Proofs.CtwFMNProps Proofs.CtwSADFacts Proofs.CtwKTFacts Proofs.KTFacts.
Open Scope R_scope.
Notation no_hist := (fun h : list Z => h = []).
Notation any_order order := (forall t l, Permutation (order t l) l).

(** Every sequence up to the maximal length is processed ... *)
Theorem C62_total : forall S T (Q : probseq S) reset (C : store_class (S := S) T) TI order, any_order order ->
  forall A okw Inv, running_total Q reset -> steps (q_model Q) A no_hist okw Inv ->
  (forall s, Inv s -> Inv (reset s)) -> store_law C TI ->
  forall H fresh evs, Inv fresh -> Forall (ok_event A no_hist okw) evs -> (length evs <= 2 ^ H)%nat ->
  exists s0 s l, qfmn_init reset C order H fresh = Ok s0 /\ run (QFMN_model Q reset C order) s0 evs = Ok (s, l).
Proof. exact @qfmn_total. Qed.
Print Assumptions C62_total.

(** ... and one symbol more is refused. *)
Theorem C62_full : forall S T (Q : probseq S) reset (C : store_class (S := S) T) TI order, any_order order ->
  forall A okw Inv, running_total Q reset -> steps (q_model Q) A no_hist okw Inv ->
  (forall s, Inv s -> Inv (reset s)) -> store_law C TI ->
  forall H fresh evs e s0 s l, Inv fresh -> Forall (ok_event A no_hist okw) evs -> ok_event A no_hist okw e ->
  length evs = (2 ^ H)%nat ->
  qfmn_init reset C order H fresh = Ok s0 -> run (QFMN_model Q reset C order) s0 evs = Ok (s, l) ->
  qfmn_update Q reset C order s (ev_sym e) (ev_hist e) (ev_wt e) = Err AssertionError.
Proof. exact @qfmn_full. Qed.
Print Assumptions C62_full.

(** The returned values are a distribution, and log_predict gives, at every time, the value update
    would return. *)
Theorem C62_distribution : forall S T (Q : probseq S) reset (C : store_class (S := S) T) TI order, any_order order ->
  forall A okw Inv, running_total Q reset -> steps (q_model Q) A no_hist okw Inv ->
  (forall s, Inv s -> Inv (reset s)) -> store_law C TI ->
  forall H fresh evs w s0 s l, lawful (q_model Q) A no_hist okw Inv -> Inv fresh ->
  Forall (ok_event A no_hist okw) evs -> okw w -> (length evs < 2 ^ H)%nat ->
  qfmn_init reset C order H fresh = Ok s0 -> run (QFMN_model Q reset C order) s0 evs = Ok (s, l) ->
  Rsum (map (fun a => upd_prob (qfmn_update Q reset C order) s a [] w) A) = 1.
Proof. exact @qfmn_norm. Qed.
Print Assumptions C62_distribution.

Theorem C62_log_predict : forall S T (Q : probseq S) reset (C : store_class (S := S) T) TI order, any_order order ->
  forall A okw Inv, running_total Q reset -> steps (q_model Q) A no_hist okw Inv ->
  (forall s, Inv s -> Inv (reset s)) -> store_law C TI ->
  forall H fresh evs e s0 s l, Inv fresh -> Forall (ok_event A no_hist okw) evs -> ok_event A no_hist okw e ->
  (length evs < 2 ^ H)%nat ->
  qfmn_init reset C order H fresh = Ok s0 -> run (QFMN_model Q reset C order) s0 evs = Ok (s, l) ->
  exists s' l', qfmn_update Q reset C order s (ev_sym e) (ev_hist e) (ev_wt e) = Ok (s', l') /\
    qfmn_log_predict Q reset C order s (ev_sym e) (ev_hist e) = Ok l'.
Proof. exact @qfmn_agrees. Qed.
Print Assumptions C62_log_predict.

(** The store is offered the initial model and then, after each symbol, a previously retained model
    that has been fed the symbols since some earlier time. *)
Theorem C62_offered : forall S T (Q : probseq S) reset (C : store_class (S := S) T) TI order, any_order order ->
  forall A okw Inv, running_total Q reset -> steps (q_model Q) A no_hist okw Inv ->
  (forall s, Inv s -> Inv (reset s)) -> store_law C TI ->
  forall H fresh evs s0 s l, Inv fresh -> Forall (ok_event A no_hist okw) evs -> (length evs <= 2 ^ H)%nat ->
  qfmn_init reset C order H fresh = Ok s0 -> run (QFMN_model Q reset C order) s0 evs = Ok (s, l) ->
  exists xs, length xs = (1 + length evs)%nat /\ hd_error xs = Some fresh /\
    st_adds C (st_empty C) xs = Ok (qf_models s) /\
    forall i x, nth_error xs (Datatypes.S i) = Some x -> qreused Q reset C order s0 evs (Datatypes.S i) x.
Proof. exact @qfmn_offered. Qed.
Print Assumptions C62_offered.

(** With LogStore: the number of retained models, and the initial one is always among them. *)
Theorem C62_logstore : forall S (Q : probseq S) reset order A okw Inv H fresh evs s0 s l,
  any_order order -> running_total Q reset -> steps (q_model Q) A no_hist okw Inv ->
  (forall s, Inv s -> Inv (reset s)) -> Inv fresh -> Forall (ok_event A no_hist okw) evs -> (length evs <= 2 ^ H)%nat ->
  qfmn_init reset (LogStore_class S) order H fresh = Ok s0 ->
  run (QFMN_model Q reset (LogStore_class S) order) s0 evs = Ok (s, l) ->
  length (ls_iter (qf_models s)) = (Nat.log2 (1 + length evs) + 1)%nat /\
  nth_error (ls_iter (qf_models s)) (Nat.log2 (1 + length evs)) = Some fresh.
Proof. exact @qfmn_logstore_retains. Qed.
Print Assumptions C62_logstore.

(** FMN competes with using, on each segment of any binary partition of the whole span in which some
    symbol was seen, any model retained when the segment begins. There is no further term, since the
    height is given beforehand. *)
Theorem C62_competes : forall S T (Q : probseq S) reset (C : store_class (S := S) T) TI order, any_order order ->
  forall A okw Inv, running_total Q reset -> steps (q_model Q) A no_hist okw Inv ->
  (forall s, Inv s -> Inv (reset s)) -> store_law C TI ->
  forall H fresh evs s0 s l p (choice : nat -> S), Inv fresh -> Forall (ok_event A no_hist okw) evs ->
  (length evs <= 2 ^ H)%nat ->
  qfmn_init reset C order H fresh = Ok s0 -> run (QFMN_model Q reset C order) s0 evs = Ok (s, l) ->
  let sgs := filter (fun sg : nat * nat => (fst sg <? length evs)%nat) (segments 0 H 0 p) in
  is_part H p ->
  (forall sg, In sg sgs -> In (choice (fst sg)) (qretained Q reset C order s0 evs (fst sg))) ->
  - l <= Rsum (map (fun sg => - ln (seq_prob (q_model Q) (choice (fst sg)) (firstn (snd sg) (skipn (fst sg) evs)))
                              + ln (INR (length (qretained Q reset C order s0 evs (fst sg))))) sgs)
         + INR (pcost H p) * ln 2.
Proof. exact @qfmn_competes. Qed.
Print Assumptions C62_competes.

(** FMN(2, lambda: KT([0, 1])) with the set iterated backwards at odd times, three symbols of the
    possible four, and a partition of the span. *)
Example C62_ex : let A := [0; 1]%Z in let evs := [Event 0 [] 1; Event 1 [] (/ 2); Event 1 [] 1] in
  let order := fun (t : nat) (l : list qkt) => if Nat.odd t then rev l else l in
  any_order order /\ running_total QKT_class qkt_reset /\ steps (q_model QKT_class) A no_hist nonneg (qkt_inv A) /\
  lawful (q_model QKT_class) A no_hist nonneg (qkt_inv A) /\ (forall s, qkt_inv A s -> qkt_inv A (qkt_reset s)) /\
  qkt_inv A (qkt_init A) /\ Forall (ok_event A no_hist nonneg) evs /\
  is_part 2 (Halves Whole (Halves Whole Whole)) /\
  filter (fun sg : nat * nat => (fst sg <? 3)%nat) (segments 0 2 0 (Halves Whole (Halves Whole Whole))) = [(0, 2); (2, 1)]%nat /\
  exists s0 s l, qfmn_init qkt_reset (LogStore_class _) order 2 (qkt_init A) = Ok s0 /\
    run (QFMN_model QKT_class qkt_reset (LogStore_class _) order) s0 evs = Ok (s, l).
Proof.
  intros A evs order. assert (HA : NoDup A) by (repeat constructor; cbn; intuition lia).
  assert (Ho : any_order order).
  { intros t l. unfold order. destruct (Nat.odd t); [apply Permutation_sym, Permutation_rev|apply Permutation_refl]. }
  assert (Hev : Forall (ok_event A no_hist nonneg) evs).
  { repeat apply Forall_cons; try apply Forall_nil; unfold ok_event, nonneg; cbn; intuition lra. }
  assert (Hf : qkt_inv A (qkt_init A)) by (apply qkt_inv_init; [exact HA|discriminate]).
  split; [exact Ho|]. split; [exact qkt_rt|]. split; [apply qkt_steps|]. split; [apply qkt_lawful|]. split; [intros s H; exact H|].
  split; [exact Hf|]. split; [exact Hev|]. split; [repeat split; constructor|]. split; [reflexivity|].
  apply (qfmn_total QKT_class qkt_reset (LogStore_class _) _ order Ho A nonneg (qkt_inv A) qkt_rt (qkt_steps A _) (fun s H => H) (logstore_law _) 2); [exact Hf|exact Hev|cbn; lia].
Qed.
