(** C112: the models of ctw.py and learners.py learn sources over any alphabet, and track sources that change.
    [Q] is a class of base models of ctw.py, whose log_prob attribute update must increase by what it returns. *)
From Coq Require Import Lra Lia Permutation.
From Verif Require Import Model.KT Model.CTW Model.CtwPTW Model.CtwCTW Model.CtwFMN Model.LearnersPTW Model.Stores Spec.LearnSpec Spec.CtwSpec Spec.CtwFMNSpec Spec.PTWSpec Spec.SeqSpec.
From Verif Require Import Proofs.CtwKTFacts Proofs.CtwSADFacts Proofs.KTFacts Proofs.LearnOwn Proofs.LearnOwnTracks Proofs.LearnOwnTop.
Open Scope R_scope.
Notation adds_up Q := (forall s a h w s' l, m_update (q_model Q) s a h w = Ok (s', l) -> q_lp Q s' = q_lp Q s + l).
Notation updC Q fresh D := (qobj_update Q fresh (mkcontext (Z.of_nat D))).
Notation prdC Q fresh D := (qobj_log_predict Q fresh (mkcontext (Z.of_nat D))).
Notation initC fresh D := (qobj_init fresh (Z.of_nat D)).
Notation unit_weights seq := (map (fun a => (a, 1)) seq).

(** ctw.CTW over any class that learns: one sequence, *)
Theorem C112_ctw : forall St (Q : probseq St), adds_up Q -> forall fresh, q_lp Q fresh = 0 -> let M := without_history (q_model Q) in
  forall A okh okw Inv, steps M A okh okw Inv -> Inv fresh ->
  forall src price (ok : event -> Prop), (forall e, ok e -> ok_event A okh okw e) -> learns M fresh ok src price ->
  (forall a b, (a <= b)%nat -> price a <= price b) -> (forall n, 0 <= price n) -> (forall r e, src r -> 0 <= r e) ->
  forall K D, NoDup K -> In 0%Z K -> (0 < D)%nat -> forall L C r, tree_of src K D L C r ->
  forall seq, let evs := events_from [] seq 1 in Forall (fun e => ok e /\ incl (ev_hist e) K) evs -> 0 < Rprod (map r evs) ->
  exists s rs, hexec (updC Q fresh D) (prdC Q fresh D) (initC fresh D) (updates (unit_weights seq)) = Ok (s, rs) /\
    - Rsum rs <= - ln (Rprod (map r evs)) + INR L * price (length seq) + INR C * ln 2.
Proof. exact @own_learns. Qed.
Print Assumptions C112_ctw.

(** or several, with reset_history after each. *)
Theorem C112_ctw_episodes : forall St (Q : probseq St), adds_up Q -> forall fresh, q_lp Q fresh = 0 -> let M := without_history (q_model Q) in
  forall A okh okw Inv, steps M A okh okw Inv -> Inv fresh ->
  forall src price (ok : event -> Prop), (forall e, ok e -> ok_event A okh okw e) -> learns M fresh ok src price ->
  (forall a b, (a <= b)%nat -> price a <= price b) -> (forall n, 0 <= price n) -> (forall r e, src r -> 0 <= r e) ->
  forall K D, NoDup K -> In 0%Z K -> (0 < D)%nat -> forall L C r, tree_of src K D L C r ->
  forall seqs, let evs := flat_map (fun seq => events_from [] seq 1) seqs in Forall (fun e => ok e /\ incl (ev_hist e) K) evs -> 0 < Rprod (map r evs) ->
  exists s rs, episodes reset_history (updC Q fresh D) (prdC Q fresh D) (initC fresh D) (map (fun seq => updates (unit_weights seq)) seqs) = Ok (s, rs) /\
    - Rsum rs <= - ln (Rprod (map r evs)) + INR L * price (length evs) + INR C * ln 2.
Proof. exact @own_learns_episodes. Qed.
Print Assumptions C112_ctw_episodes.

Theorem C112_ctw_kt : forall A, NoDup A -> (2 <= length A)%nat ->
  forall K D, NoDup K -> In 0%Z K -> incl A K -> (0 < D)%nat ->
  forall L C r, tree_of (memoryless A) K D L C r -> forall seqs, Forall (fun seq => incl seq A) seqs ->
  let evs := flat_map (fun seq => events_from [] seq 1) seqs in 0 < Rprod (map r evs) ->
  let Q := QKT_class in let fresh := qkt_init A in
  exists s rs, episodes reset_history (updC Q fresh D) (prdC Q fresh D) (initC fresh D) (map (fun seq => updates (unit_weights seq)) seqs) = Ok (s, rs) /\
    - Rsum rs <= - ln (Rprod (map r evs)) + INR L * learn_any (length A) (length evs) + INR C * ln 2.
Proof. exact ctw_ctw_kt. Qed.
Print Assumptions C112_ctw_kt.

Theorem C112_ctw_sad : forall A, NoDup A -> A <> [] ->
  forall K D, NoDup K -> In 0%Z K -> incl A K -> (0 < D)%nat ->
  forall L C r, tree_of (memoryless A) K D L C r -> forall seqs, Forall (fun seq => incl seq A) seqs ->
  let evs := flat_map (fun seq => events_from [] seq 1) seqs in 0 < Rprod (map r evs) ->
  let Q := QSAD_class in let fresh := qsad_init (Z.of_nat (length A)) in
  exists s rs, episodes reset_history (updC Q fresh D) (prdC Q fresh D) (initC fresh D) (map (fun seq => updates (unit_weights seq)) seqs) = Ok (s, rs) /\
    - Rsum rs <= - ln (Rprod (map r evs)) + INR L * sad_learn (length A) (length evs) + INR C * ln 2.
Proof. exact ctw_ctw_sad. Qed.
Print Assumptions C112_ctw_sad.

(** ctw.PTW of height H over any class that learns tracks changes at any times. *)
Theorem C112_ptw : forall St (Q : probseq St) A okw Inv, steps (q_model Q) A no_hist okw Inv -> forall fresh, Inv fresh ->
  forall src price (ok : event -> Prop), (forall e, ok e -> ok_event A no_hist okw e) -> learns (q_model Q) fresh ok src price ->
  (forall a b, (a <= b)%nat -> price a <= price b) -> (forall n, 0 <= price n) ->
  forall q, (forall t e, 0 <= q t e) -> (forall t, src (q t)) -> forall cps, changes_only q cps ->
  forall H evs, Forall ok evs -> (length evs <= 2 ^ H)%nat -> 0 < source_prob q 0 evs ->
  adds_up Q -> q_lp Q fresh = 0 -> let n := length evs in let k := length cps in
  exists s l, run (QPTW_model Q fresh) (qptw_init fresh H) evs = Ok (s, l) /\
    - l <= - ln (source_prob q 0 evs) + (INR (1 + k * H) * price n + INR (1 + 2 * k * H) * ln 2).
Proof. exact @qptw_tracks. Qed.
Print Assumptions C112_ptw.

(** ctw.FMN likewise, in whatever order its set of models is iterated. *)
Theorem C112_fmn : forall St (Q : probseq St) A okw Inv, steps (q_model Q) A no_hist okw Inv -> forall fresh, Inv fresh ->
  forall src price (ok : event -> Prop), (forall e, ok e -> ok_event A no_hist okw e) -> learns (q_model Q) fresh ok src price ->
  (forall a b, (a <= b)%nat -> price a <= price b) -> (forall n, 0 <= price n) ->
  forall q, (forall t e, 0 <= q t e) -> (forall t, src (q t)) -> forall cps, changes_only q cps ->
  forall H evs, Forall ok evs -> (length evs <= 2 ^ H)%nat -> 0 < source_prob q 0 evs ->
  forall reset order, (forall t l, Permutation (order t l) l) -> running_total Q reset -> (forall s, Inv s -> Inv (reset s)) ->
  let n := length evs in let k := length cps in
  exists s0 s l, qfmn_init reset (LogStore_class St) order H fresh = Ok s0 /\ run (QFMN_model Q reset (LogStore_class St) order) s0 evs = Ok (s, l) /\
    - l <= - ln (source_prob q 0 evs) + (INR (1 + k * H) * (price n + ln (INR (Nat.log2 (1 + n) + 1))) + INR (1 + 2 * k * H) * ln 2).
Proof. exact @qfmn_tracks. Qed.
Print Assumptions C112_fmn.

(** learners.PTW. *)
Theorem C112_learners_ptw : forall St (M : model St) A Inv, steps M A no_hist (fun w => w = 1) Inv -> forall fresh, Inv fresh ->
  forall src price (ok : event -> Prop), (forall e, ok e -> ok_event A no_hist (fun w => w = 1) e) -> learns M fresh ok src price ->
  (forall a b, (a <= b)%nat -> price a <= price b) -> (forall n, 0 <= price n) ->
  forall q, (forall t e, 0 <= q t e) -> (forall t, src (q t)) -> forall cps, changes_only q cps ->
  forall H evs, Forall ok evs -> (length evs <= 2 ^ H)%nat -> 0 < source_prob q 0 evs ->
  let n := length evs in let k := length cps in
  exists s l, run (LPTW_model M fresh) (lptw_init fresh H) evs = Ok (s, l) /\
    - l <= - ln (source_prob q 0 evs) + (INR (1 + k * H) * price n + INR (1 + 2 * k * H) * ln 2).
Proof. exact @lptw_tracks. Qed.
Print Assumptions C112_learners_ptw.

(** Over the KT of the same file, and over SAD, for any alphabet. *)
Theorem C112_ptw_kt : forall A, NoDup A -> let k := length A in (2 <= k)%nat ->
  forall q, (forall t, memoryless A (q t)) -> forall cps, changes_only q cps ->
  forall H xs, incl xs A -> (length xs <= 2 ^ H)%nat -> let evs := unit_events xs in 0 < source_prob q 0 evs ->
  let n := length xs in let c := length cps in
  exists s l, run (QPTW_model QKT_class (qkt_init A)) (qptw_init (qkt_init A) H) evs = Ok (s, l) /\
    - l <= - ln (source_prob q 0 evs) + (INR (1 + c * H) * learn_any k n + INR (1 + 2 * c * H) * ln 2).
Proof. exact ctw_ptw_kt. Qed.
Print Assumptions C112_ptw_kt.

Theorem C112_fmn_kt : forall A, NoDup A -> let k := length A in (2 <= k)%nat ->
  forall q, (forall t, memoryless A (q t)) -> forall cps, changes_only q cps ->
  forall H xs, incl xs A -> (length xs <= 2 ^ H)%nat -> let evs := unit_events xs in 0 < source_prob q 0 evs ->
  let n := length xs in let c := length cps in
  forall order, (forall t l, Permutation (order t l) l) ->
  exists s0 s l, qfmn_init qkt_reset (LogStore_class _) order H (qkt_init A) = Ok s0 /\
    run (QFMN_model QKT_class qkt_reset (LogStore_class _) order) s0 evs = Ok (s, l) /\
    - l <= - ln (source_prob q 0 evs) + (INR (1 + c * H) * (learn_any k n + ln (INR (Nat.log2 (1 + n) + 1))) + INR (1 + 2 * c * H) * ln 2).
Proof. exact ctw_fmn_kt. Qed.
Print Assumptions C112_fmn_kt.

Theorem C112_learners_ptw_kt : forall A, NoDup A -> let k := length A in (2 <= k)%nat ->
  forall q, (forall t, memoryless A (q t)) -> forall cps, changes_only q cps ->
  forall H xs, incl xs A -> (length xs <= 2 ^ H)%nat -> let evs := unit_events xs in 0 < source_prob q 0 evs ->
  let n := length xs in let c := length cps in
  exists s l, run (LPTW_model LKT_model (lkt_init A)) (lptw_init (lkt_init A) H) evs = Ok (s, l) /\
    - l <= - ln (source_prob q 0 evs) + (INR (1 + c * H) * learn_any k n + INR (1 + 2 * c * H) * ln 2).
Proof. exact learners_ptw_kt. Qed.
Print Assumptions C112_learners_ptw_kt.

Theorem C112_fmn_sad : forall A, NoDup A -> A <> [] -> let k := length A in let fresh := qsad_init (Z.of_nat k) in
  forall q cps H xs order, (forall t, memoryless A (q t)) -> changes_only q cps -> incl xs A -> (length xs <= 2 ^ H)%nat ->
  (forall t l, Permutation (order t l) l) -> let evs := unit_events xs in 0 < source_prob q 0 evs -> let n := length xs in let c := length cps in
  exists s0 s l, qfmn_init qsad_reset (LogStore_class _) order H fresh = Ok s0 /\
    run (QFMN_model QSAD_class qsad_reset (LogStore_class _) order) s0 evs = Ok (s, l) /\
    - l <= - ln (source_prob q 0 evs) + (INR (1 + c * H) * (sad_learn k n + ln (INR (Nat.log2 (1 + n) + 1))) + INR (1 + 2 * c * H) * ln 2).
Proof. exact ctw_fmn_sad. Qed.
Print Assumptions C112_fmn_sad.

(** Three symbols, two sequences; a tree that repeats the last symbol; a source that changes at time 3, which
    is not the middle of anything; a set iterated backwards at odd times. *)
Definition C112_A : list Z := [0; 1; 2]%Z.
Definition C112_repeat (v : list Z) (a : Z) : R :=
  match v with [b] => if existsb (Z.eqb b) C112_A then if (a =? b)%Z then / 2 else / 4 else / 3 | _ => / 3 end.
Definition C112_r (e : event) : R := C112_repeat (leaf_at C112_A [] (Branch [Leaf; Leaf; Leaf]) (recent 2 (ev_hist e))) (ev_sym e).
Definition C112_q (t : nat) (e : event) : R := if (t <? 3)%nat then / 3 else if (ev_sym e =? 0)%Z then / 2 else / 4.
Definition C112_order {X} (t : nat) (l : list X) : list X := if Nat.odd t then rev l else l.

Example C112_ex : let xs := [0; 1; 2; 0; 0; 0; 1]%Z in let seqs := [[0; 0; 1]; [2; 2]]%Z in
  NoDup C112_A /\ (2 <= length C112_A)%nat /\ C112_A <> [] /\ In 0%Z C112_A /\ incl C112_A C112_A /\ (0 < 2)%nat /\
  tree_of (memoryless C112_A) C112_A 2 3 4 C112_r /\ Forall (fun seq => incl seq C112_A) seqs /\
  Rprod (map C112_r (flat_map (fun seq => events_from [] seq 1) seqs)) = / 128 /\
  (forall t, memoryless C112_A (C112_q t)) /\ changes_only C112_q [3%nat] /\ incl xs C112_A /\ (length xs <= 2 ^ 3)%nat /\
  source_prob C112_q 0 (unit_events xs) = / 864 /\ (forall X t (l : list X), Permutation (C112_order t l) l).
Proof.
  cbv zeta.
  assert (H3 : distribution C112_A (fun _ => / 3)) by (split; [intros a; lra|]; unfold C112_A, Rsum; cbn; lra).
  assert (HL : distribution C112_A (fun a => if (a =? 0)%Z then / 2 else / 4)).
  { split; [intros a; destruct (a =? 0)%Z; lra|]. unfold C112_A, Rsum. cbn. lra. }
  split; [repeat constructor; cbn; intuition discriminate|]. split; [cbn; lia|]. split; [discriminate|]. split; [now left|]. split; [apply incl_refl|]. split; [lia|].
  split; [|split; [|split; [|split; [|split; [|split; [|split; [|split]]]]]]].
  - exists (fun v e => C112_repeat v (ev_sym e)), (Branch [Leaf; Leaf; Leaf]).
    split; [repeat constructor|]. split; [cbn; lia|]. split; [cbn; lia|]. split; [|reflexivity].
    intros v. exists (C112_repeat v). split; [|reflexivity]. destruct v as [|b [|b2 v]]; [exact H3| |exact H3].
    unfold C112_repeat, distribution. destruct (existsb (Z.eqb b) C112_A) eqn:E; [|exact H3]. split.
    { intros a. destruct (a =? b)%Z; lra. }
    apply existsb_exists in E as (x & Hx & E). apply Z.eqb_eq in E. subst x. unfold Rsum.
    destruct Hx as [<- | [<- | [<- | []]]]; cbn; lra.
  - apply Forall_cons; [|apply Forall_cons; [|apply Forall_nil]]; intros z Hz; cbn in Hz |- *; tauto.
  - unfold C112_r, C112_repeat. cbn. lra.
  - intros t. unfold C112_q. destruct (t <? 3)%nat; [exists (fun _ => / 3)|exists (fun a => if (a =? 0)%Z then / 2 else / 4)]; (split; [assumption|reflexivity]).
  - intros t H e. unfold C112_q. destruct (Nat.ltb_spec (S t) 3), (Nat.ltb_spec t 3); try reflexivity; [lia|]. destruct H. left. lia.
  - intros z Hz. cbn in Hz |- *. tauto.
  - cbn. lia.
  - unfold source_prob, C112_q. cbn. lra.
  - intros X t l. unfold C112_order. destruct (Nat.odd t); [symmetry; apply Permutation_rev|reflexivity].
Qed.
