(** C114: Factored over models that learn. Symbol number [k] goes to factor [k mod n]; [share n i evs] is how
    many symbols factor [i] gets. *)
From Coq Require Import Lra Lia.
From Verif Require Import Model.KT Model.CTW Model.PTW Model.FMN Model.Factored Spec.FactorsSpec Spec.PTWSpec Spec.FMNSpec.
From Verif Require Import Model.CtwCTW Model.CtwFMN Model.CtwFactorize Spec.CtwSpec.
From Verif Require Import Proofs.ProbFacts Proofs.KTFacts Proofs.CtwKTFacts Proofs.FloatsAnyTop Proofs.LearnTop Proofs.FactorsTop Proofs.FactorsOwn.
Open Scope R_scope.

(** If every factor learns a class of sources, Factored learns such sources taking turns; the prices add up. *)
Theorem C114_learns : forall St (M : model St) fs src price (ok : nat -> event -> Prop), fs <> [] ->
  (forall i f, nth_error fs i = Some f -> forall es, Forall (ok i) es -> exists x, run M f es = Ok x) ->
  (forall i f, nth_error fs i = Some f -> learns M f (ok i) (src i) (price i)) -> (forall i r e, src i r -> 0 <= r e) ->
  let n := length fs in forall r evs, (forall i, (i < n)%nat -> src i (r i)) -> Forall (fun e => ok (turn n e) e /\ ev_wt e = 1) evs ->
  0 < Rprod (map (in_turn n r) evs) ->
  exists s l, run (Factored_model M) fs evs = Ok (s, l) /\
    - l <= - ln (Rprod (map (in_turn n r) evs)) + Rsum (map (fun i => price i (share n i evs)) (seq 0 n)).
Proof. exact @fac_learns. Qed.
Print Assumptions C114_learns.

(** CTWs over KT, each of its own depth. *)
Theorem C114_ctw_kt : forall A, NoDup A -> (2 <= length A)%nat -> forall binary K, NoDup K -> In 0%Z K -> (binary = true -> incl K [0; 1]%Z) ->
  forall depths (L C : nat -> nat) r evs, depths <> [] -> Forall (fun d => 0 < d)%nat depths -> let n := length depths in
  (forall i, (i < n)%nat -> tree_of (memoryless A) K (nth i depths 0%nat) (L i) (C i) (r i)) ->
  Forall (fun e => symbol_of A e /\ incl (ev_hist e) K) evs -> 0 < Rprod (map (in_turn n r) evs) ->
  exists s l, run (Factored_model (CTW_model KT_model (kt_init A) binary)) (map (fun d => ctw_init (kt_init A) (Z.of_nat d)) depths) evs = Ok (s, l) /\
    - l <= - ln (Rprod (map (in_turn n r) evs))
           + Rsum (map (fun i => INR (L i) * learn_any (length A) (share n i evs) + INR (C i) * ln 2) (seq 0 n)).
Proof. exact fac_ctw_kt. Qed.
Print Assumptions C114_ctw_kt.

(** Over PTWs: the source of each turn changes at times of its own. *)
Theorem C114_ptw : forall St (M : model St) A okh okw Inv, steps M A okh okw Inv -> forall fresh, Inv fresh ->
  forall src price (ok : event -> Prop), (forall e, ok e -> ok_event A okh okw e) -> learns M fresh ok src price ->
  (forall a b, (a <= b)%nat -> price a <= price b) -> (forall n, 0 <= price n) -> (forall r e, src r -> 0 <= r e) ->
  forall n m q cps, (0 < n)%nat -> (forall i t, src (q i t)) -> (forall i, changes_only (q i) (cps i)) ->
  (forall i, Forall (fun c => c mod 2 ^ m = 0)%nat (cps i)) ->
  forall evs, Forall (fun e => ok e /\ ev_wt e = 1) evs -> 0 < turns n q [] evs ->
  exists s l, run (Factored_model (PTW_model M m fresh)) (repeat (ptw_init m fresh) n) evs = Ok (s, l) /\
    - l <= - ln (turns n q [] evs) + Rsum (map (fun i => let N := share n i evs in let d := levels m N in let k := length (cps i) in
      INR (1 + k * d) * price N + INR (1 + 2 * k * d) * ln 2 + INR (pred d) * ln (3 / 2)) (seq 0 n)).
Proof. exact @fac_ptw_tracks. Qed.
Print Assumptions C114_ptw.

(** Over FMNs. *)
Theorem C114_fmn : forall St (M : model St) A okh okw Inv, steps M A okh okw Inv -> forall fresh, Inv fresh ->
  forall src price (ok : event -> Prop), (forall e, ok e -> ok_event A okh okw e) -> learns M fresh ok src price ->
  (forall a b, (a <= b)%nat -> price a <= price b) -> (forall n, 0 <= price n) -> (forall r e, src r -> 0 <= r e) ->
  forall n m q cps, (0 < n)%nat -> (forall i t, src (q i t)) -> (forall i, changes_only (q i) (cps i)) ->
  (forall i, Forall (fun c => c mod 2 ^ m = 0)%nat (cps i)) ->
  forall evs, Forall (fun e => ok e /\ ev_wt e = 1) evs -> 0 < turns n q [] evs ->
  exists s0 s l, fmn_init (LogStore_class _) m fresh = Ok s0 /\
    run (Factored_model (FMN_model M (LogStore_class _) m)) (repeat s0 n) evs = Ok (s, l) /\
    - l <= - ln (turns n q [] evs) + Rsum (map (fun i => let N := share n i evs in let d := levels m N in let k := length (cps i) in
      INR (1 + k * d) * (price N + ln (INR (Nat.log2 (1 + N / 2 ^ m) + 1))) + INR (1 + 2 * k * d) * ln 2 + INR (pred d) * ln (3 / 2)) (seq 0 n)).
Proof. exact @fac_fmn_tracks. Qed.
Print Assumptions C114_fmn.

(** Over FMNs over CTW over KT. *)
Theorem C114_fmn_ctw_kt : forall A, NoDup A -> (2 <= length A)%nat -> forall binary K, NoDup K -> In 0%Z K -> (binary = true -> incl K [0; 1]%Z) ->
  forall D n m L C q cps evs, (0 < D)%nat -> (0 < n)%nat -> (forall i t, tree_of (memoryless A) K D L C (q i t)) ->
  (forall i, changes_only (q i) (cps i)) -> (forall i, Forall (fun c => c mod 2 ^ m = 0)%nat (cps i)) ->
  Forall (fun e => symbol_of A e /\ incl (ev_hist e) K) evs -> 0 < turns n q [] evs ->
  exists s0 s l, fmn_init (LogStore_class _) m (ctw_init (kt_init A) (Z.of_nat D)) = Ok s0 /\
    run (Factored_model (FMN_model (CTW_model KT_model (kt_init A) binary) (LogStore_class _) m)) (repeat s0 n) evs = Ok (s, l) /\
    - l <= - ln (turns n q [] evs) + Rsum (map (fun i => let N := share n i evs in let d := levels m N in let c := length (cps i) in
      INR (1 + c * d) * (INR L * learn_any (length A) N + INR C * ln 2 + ln (INR (Nat.log2 (1 + N / 2 ^ m) + 1)))
      + INR (1 + 2 * c * d) * ln 2 + INR (pred d) * ln (3 / 2)) (seq 0 n)).
Proof. exact fac_fmn_ctw_kt. Qed.
Print Assumptions C114_fmn_ctw_kt.

(** The class Factorized of ctw.py, over its CTW over a class that learns, *)
Theorem C114_factorized : forall St (Q : probseq St), (forall s a h w s' l, m_update (q_model Q) s a h w = Ok (s', l) -> q_lp Q s' = q_lp Q s + l) ->
  forall fresh, q_lp Q fresh = 0 -> forall A okw Inv, steps (q_model Q) A (fun h => h = []) okw Inv -> Inv fresh -> okw 1 ->
  forall src price, learns (without_history (q_model Q)) fresh (symbol_of A) src price ->
  (forall a b, (a <= b)%nat -> price a <= price b) -> (forall n, 0 <= price n) -> (forall r e, src r -> 0 <= r e) ->
  forall K D n, NoDup K -> In 0%Z K -> incl A K -> (0 < D)%nat -> (0 < n)%nat ->
  forall (L C : nat -> nat) r seq, (forall i, (i < n)%nat -> tree_of src K D (L i) (C i) (r i)) -> incl seq A ->
  let evs := events_from [] seq 1 in 0 < Rprod (map (in_turn n r) evs) ->
  exists s rs, hexec (fz_update (ctw_factor_update Q fresh (mkcontext (Z.of_nat D))) (Z.of_nat n))
                     (fz_log_predict (ctw_factor_predict Q fresh (mkcontext (Z.of_nat D))) (Z.of_nat n))
                     (fz_init (qobj_init fresh (Z.of_nat D)) (Z.of_nat n)) (updates (map (fun a => (a, 1)) seq)) = Ok (s, rs) /\
    - Rsum rs <= - ln (Rprod (map (in_turn n r) evs)) + Rsum (map (fun i => INR (L i) * price (share n i evs) + INR (C i) * ln 2) (List.seq 0 n)).
Proof. exact @factorized_learns. Qed.
Print Assumptions C114_factorized.

(** in particular over its KT. *)
Theorem C114_factorized_kt : forall A, NoDup A -> (2 <= length A)%nat ->
  forall K D n, NoDup K -> In 0%Z K -> incl A K -> (0 < D)%nat -> (0 < n)%nat ->
  forall (L C : nat -> nat) r seq, (forall i, (i < n)%nat -> tree_of (memoryless A) K D (L i) (C i) (r i)) -> incl seq A ->
  let evs := events_from [] seq 1 in 0 < Rprod (map (in_turn n r) evs) ->
  let Q := QKT_class in let fresh := qkt_init A in
  exists s rs, hexec (fz_update (ctw_factor_update Q fresh (mkcontext (Z.of_nat D))) (Z.of_nat n))
                     (fz_log_predict (ctw_factor_predict Q fresh (mkcontext (Z.of_nat D))) (Z.of_nat n))
                     (fz_init (qobj_init fresh (Z.of_nat D)) (Z.of_nat n)) (updates (map (fun a => (a, 1)) seq)) = Ok (s, rs) /\
    - Rsum rs <= - ln (Rprod (map (in_turn n r) evs))
                 + Rsum (map (fun i => INR (L i) * learn_any (length A) (share n i evs) + INR (C i) * ln 2) (List.seq 0 n)).
Proof. exact factorized_kt. Qed.
Print Assumptions C114_factorized_kt.

(** and over its SAD. *)
Theorem C114_factorized_sad : forall A, NoDup A -> A <> [] ->
  forall K D n, NoDup K -> In 0%Z K -> incl A K -> (0 < D)%nat -> (0 < n)%nat ->
  forall (L C : nat -> nat) r seq, (forall i, (i < n)%nat -> tree_of (memoryless A) K D (L i) (C i) (r i)) -> incl seq A ->
  let evs := events_from [] seq 1 in 0 < Rprod (map (in_turn n r) evs) ->
  let Q := QSAD_class in let fresh := qsad_init (Z.of_nat (length A)) in
  exists s rs, hexec (fz_update (ctw_factor_update Q fresh (mkcontext (Z.of_nat D))) (Z.of_nat n))
                     (fz_log_predict (ctw_factor_predict Q fresh (mkcontext (Z.of_nat D))) (Z.of_nat n))
                     (fz_init (qobj_init fresh (Z.of_nat D)) (Z.of_nat n)) (updates (map (fun a => (a, 1)) seq)) = Ok (s, rs) /\
    - Rsum rs <= - ln (Rprod (map (in_turn n r) evs))
                 + Rsum (map (fun i => INR (L i) * sad_learn (length A) (share n i evs) + INR (C i) * ln 2) (List.seq 0 n)).
Proof. exact factorized_sad. Qed.
Print Assumptions C114_factorized_sad.

(** Three symbols and two turns. At even positions they are uniform; at odd positions too for the first two,
    and then 0 has probability 1/2 and 1 and 2 have 1/4. *)
Definition C114_A : list Z := [0; 1; 2]%Z.
Definition C114_lean (a : Z) : R := if (a =? 0)%Z then / 2 else / 4.
Definition C114_r (i : nat) (e : event) : R := if (i =? 0)%nat then / 3 else C114_lean (ev_sym e).
Definition C114_q (i t : nat) (e : event) : R := if (t <? 2)%nat then / 3 else C114_r i e.
Definition C114_seq : list Z := [2; 0; 1; 0; 2; 0; 2; 1; 1]%Z.

Example C114_ex : NoDup C114_A /\ Forall (fun e => symbol_of C114_A e /\ incl (ev_hist e) C114_A) (events_from [] C114_seq 1) /\
  (forall i d, tree_of (memoryless C114_A) C114_A d 1 1 (C114_r i)) /\ (forall i t d, tree_of (memoryless C114_A) C114_A d 1 1 (C114_q i t)) /\
  (forall i, changes_only (C114_q i) [2%nat]) /\ Forall (fun c => c mod 2 ^ 1 = 0)%nat [2%nat] /\
  map (fun i => share 2 i (events_from [] C114_seq 1)) [0; 1]%nat = [5; 4]%nat /\
  Rprod (map (in_turn 2 C114_r) (events_from [] C114_seq 1)) = / 243 * / 32 /\
  turns 2 C114_q [] (events_from [] C114_seq 1) = / 2187 * / 8.
Proof.
  assert (H3 : memoryless C114_A (fun _ => / 3)).
  { exists (fun _ => / 3). split; [split; [intros a; lra|unfold C114_A, Rsum; cbn; lra]|reflexivity]. }
  assert (HR : forall i, memoryless C114_A (C114_r i)).
  { intros i. unfold C114_r. destruct (i =? 0)%nat; [exact H3|]. exists C114_lean. split; [|reflexivity].
    split; [intros a; unfold C114_lean; destruct (a =? 0)%Z; lra|]. unfold C114_A, C114_lean, Rsum. cbn. lra. }
  assert (HT : forall r d, memoryless C114_A r -> tree_of (memoryless C114_A) C114_A d 1 1 r).
  { intros r d Hr. exists (fun _ => r), Leaf. split; [constructor|]. split; [cbn; lia|]. split; [destruct d; cbn; lia|]. split; [intros _; exact Hr|reflexivity]. }
  assert (HI : incl C114_seq C114_A) by (intros z Hz; cbn in Hz |- *; tauto).
  split; [repeat constructor; cbn; intuition discriminate|]. split; [|split; [|split; [|split; [|split; [|split; [|split]]]]]].
  - pose proof (alpha_events C114_A C114_A C114_seq [] HI HI (incl_nil_l _)) as H. eapply Forall_impl; [|exact H].
    intros e (G1 & [_ G2] & G3). split; [split; [exact G1|symmetry; exact G3]|exact G2].
  - intros i d. apply HT, HR.
  - intros i t d. apply HT. unfold C114_q. destruct (t <? 2)%nat; [exact H3|apply HR].
  - intros i t H e. unfold C114_q. destruct (Nat.ltb_spec (S t) 2), (Nat.ltb_spec t 2); try reflexivity; [lia|]. destruct H. left. lia.
  - repeat constructor.
  - reflexivity.
  - unfold C114_seq, in_turn, turn, C114_r, C114_lean. cbn. lra.
  - unfold turns, C114_seq, turn, C114_q, C114_r, C114_lean. cbn. lra.
Qed.
