(** C111: CTW over any learner learns trees of its sources; over KT or SAD, with PTW or FMN on top, it tracks
    trees over any alphabet that change. *)
From Coq Require Import Lra Lia.
From Verif Require Import Model.KT Model.CTW Model.PTW Model.FMN Spec.LearnSpec Spec.FloatsNestSpec Spec.ACSpec Spec.SeqSpec Spec.PTWSpec Spec.FMNSpec.
From Verif Require Import Proofs.KTFacts Proofs.FloatsAnyTop Proofs.FloatsChop Proofs.LearnEst Proofs.LearnTop Proofs.LearnFloats.
Open Scope R_scope.

(** KT over an alphabet of k symbols learns every distribution at the price of at most (k - 1)/2 ln n + k ln k + 1/8. *)
Theorem C111_kt_learns : forall A, NoDup A -> (2 <= length A)%nat ->
  learns KT_model (kt_init A) (symbol_of A) (memoryless A) (learn_any (length A)).
Proof. exact kt_learns. Qed.
Print Assumptions C111_kt_learns.

(** SAD at the price of k (ln k + (ln n)/2 + 3/2 ln (1 + ln n) + 4). *)
Theorem C111_sad_learns : forall A, NoDup A -> A <> [] ->
  learns SAD_model (sad_init (Z.of_nat (length A))) (symbol_of A) (memoryless A) (sad_learn (length A)).
Proof. exact sad_learns. Qed.
Print Assumptions C111_sad_learns.

(** CTW over any model that learns a class of sources learns every tree with sources of the class at its leaves. *)
Theorem C111_ctw_any : forall St (M : model St) A okh okw Inv, steps M A okh okw Inv -> forall fresh, Inv fresh ->
  forall src price (ok : event -> Prop), (forall e, ok e -> ok_event A okh okw e) -> learns M fresh ok src price ->
  (forall a b, (a <= b)%nat -> price a <= price b) -> (forall n, 0 <= price n) -> (forall r e, src r -> 0 <= r e) ->
  forall binary K D, NoDup K -> In 0%Z K -> (binary = true -> incl K [0; 1]%Z) -> (0 < D)%nat ->
  forall L C, learns (CTW_model M fresh binary) (ctw_init fresh (Z.of_nat D)) (fun e => ok e /\ incl (ev_hist e) K)
    (tree_of src K D L C) (fun n => INR L * price n + INR C * ln 2).
Proof. exact @ctw_of_learner. Qed.
Print Assumptions C111_ctw_any.

Theorem C111_ctw : forall A, NoDup A -> (2 <= length A)%nat ->
  forall binary K D, NoDup K -> In 0%Z K -> (binary = true -> incl K [0; 1]%Z) -> (0 < D)%nat ->
  forall L C, learns (CTW_model KT_model (kt_init A) binary) (ctw_init (kt_init A) (Z.of_nat D)) (fun e => symbol_of A e /\ incl (ev_hist e) K)
    (tree_of (memoryless A) K D L C) (fun n => INR L * learn_any (length A) n + INR C * ln 2).
Proof. exact ctw_of_kt. Qed.
Print Assumptions C111_ctw.

Theorem C111_ctw_sad : forall A, NoDup A -> A <> [] ->
  forall binary K D, NoDup K -> In 0%Z K -> (binary = true -> incl K [0; 1]%Z) -> (0 < D)%nat ->
  forall L C, let fresh := sad_init (Z.of_nat (length A)) in
  learns (CTW_model SAD_model fresh binary) (ctw_init fresh (Z.of_nat D)) (fun e => symbol_of A e /\ incl (ev_hist e) K)
    (tree_of (memoryless A) K D L C) (fun n => INR L * sad_learn (length A) n + INR C * ln 2).
Proof. exact ctw_of_sad. Qed.
Print Assumptions C111_ctw_sad.

(** PTW and FMN over CTW over any learner track trees of its sources that change. *)
Theorem C111_ptw_ctw_any : forall St (M : model St) A okh okw Inv, steps M A okh okw Inv -> forall fresh, Inv fresh ->
  forall src price (ok : event -> Prop), (forall e, ok e -> ok_event A okh okw e) -> learns M fresh ok src price ->
  (forall a b, (a <= b)%nat -> price a <= price b) -> (forall n, 0 <= price n) -> (forall r e, src r -> 0 <= r e) ->
  forall binary K D, NoDup K -> In 0%Z K -> (binary = true -> incl K [0; 1]%Z) -> (0 < D)%nat ->
  forall cps m, Forall (fun c => c mod 2 ^ m = 0)%nat cps ->
  let CM := CTW_model M fresh binary in let cfresh := ctw_init fresh (Z.of_nat D) in
  forall L C q evs, (forall t, tree_of src K D L C (q t)) -> changes_only q cps ->
  Forall (fun e => ok e /\ incl (ev_hist e) K) evs -> 0 < source_prob q 0 evs ->
  let n := length evs in let d := levels m n in let c := length cps in
  exists s l, run (PTW_model CM m cfresh) (ptw_init m cfresh) evs = Ok (s, l) /\
    - l <= - ln (source_prob q 0 evs) + INR (1 + c * d) * (INR L * price n + INR C * ln 2) + INR (1 + 2 * c * d) * ln 2 + INR (pred d) * ln (3 / 2).
Proof. exact @ptw_ctw_learner. Qed.
Print Assumptions C111_ptw_ctw_any.

Theorem C111_fmn_ctw_any : forall St (M : model St) A okh okw Inv, steps M A okh okw Inv -> forall fresh, Inv fresh ->
  forall src price (ok : event -> Prop), (forall e, ok e -> ok_event A okh okw e) -> learns M fresh ok src price ->
  (forall a b, (a <= b)%nat -> price a <= price b) -> (forall n, 0 <= price n) -> (forall r e, src r -> 0 <= r e) ->
  forall binary K D, NoDup K -> In 0%Z K -> (binary = true -> incl K [0; 1]%Z) -> (0 < D)%nat ->
  forall cps m, Forall (fun c => c mod 2 ^ m = 0)%nat cps ->
  let CM := CTW_model M fresh binary in let cfresh := ctw_init fresh (Z.of_nat D) in
  forall L C q evs, (forall t, tree_of src K D L C (q t)) -> changes_only q cps ->
  Forall (fun e => ok e /\ incl (ev_hist e) K) evs -> 0 < source_prob q 0 evs ->
  let n := length evs in let d := levels m n in let c := length cps in
  exists s0 s l, fmn_init (LogStore_class _) m cfresh = Ok s0 /\ run (FMN_model CM (LogStore_class _) m) s0 evs = Ok (s, l) /\
    - l <= - ln (source_prob q 0 evs) + INR (1 + c * d) * (INR L * price n + INR C * ln 2 + ln (INR (Nat.log2 (1 + n / 2 ^ m) + 1)))
           + INR (1 + 2 * c * d) * ln 2 + INR (pred d) * ln (3 / 2).
Proof. exact @fmn_ctw_learner. Qed.
Print Assumptions C111_fmn_ctw_any.

(** PTW over KT tracks distributions that change. *)
Theorem C111_ptw : forall A, NoDup A -> let k := length A in (2 <= k)%nat ->
  forall cps m, Forall (fun c => c mod 2 ^ m = 0)%nat cps ->
  forall q evs, (forall t, memoryless A (q t)) -> changes_only q cps -> Forall (symbol_of A) evs -> 0 < source_prob q 0 evs ->
  let n := length evs in let d := levels m n in let c := length cps in
  exists s l, run (PTW_model KT_model m (kt_init A)) (ptw_init m (kt_init A)) evs = Ok (s, l) /\
    - l <= - ln (source_prob q 0 evs) + INR (1 + c * d) * learn_any k n + INR (1 + 2 * c * d) * ln 2 + INR (pred d) * ln (3 / 2).
Proof. exact ptw_of_kt. Qed.
Print Assumptions C111_ptw.

Theorem C111_fmn : forall A, NoDup A -> let k := length A in (2 <= k)%nat ->
  forall cps m, Forall (fun c => c mod 2 ^ m = 0)%nat cps ->
  forall q evs, (forall t, memoryless A (q t)) -> changes_only q cps -> Forall (symbol_of A) evs -> 0 < source_prob q 0 evs ->
  let n := length evs in let d := levels m n in let c := length cps in
  exists s0 s l, fmn_init (LogStore_class _) m (kt_init A) = Ok s0 /\ run (FMN_model KT_model (LogStore_class _) m) s0 evs = Ok (s, l) /\
    - l <= - ln (source_prob q 0 evs) + INR (1 + c * d) * (learn_any k n + ln (INR (Nat.log2 (1 + n / 2 ^ m) + 1)))
           + INR (1 + 2 * c * d) * ln 2 + INR (pred d) * ln (3 / 2).
Proof. exact fmn_of_kt. Qed.
Print Assumptions C111_fmn.

(** FMN over CTW over KT tracks trees, and distributions at their leaves, that change. *)
Theorem C111_fmn_ctw : forall A, NoDup A -> let k := length A in (2 <= k)%nat ->
  forall cps m, Forall (fun c => c mod 2 ^ m = 0)%nat cps ->
  forall binary K D, NoDup K -> In 0%Z K -> (binary = true -> incl K [0; 1]%Z) -> (0 < D)%nat ->
  let CM := CTW_model KT_model (kt_init A) binary in let fresh := ctw_init (kt_init A) (Z.of_nat D) in
  forall L C q evs, (forall t, tree_of (memoryless A) K D L C (q t)) -> changes_only q cps ->
  Forall (fun e => symbol_of A e /\ incl (ev_hist e) K) evs -> 0 < source_prob q 0 evs ->
  let n := length evs in let d := levels m n in let c := length cps in
  exists s0 s l, fmn_init (LogStore_class _) m fresh = Ok s0 /\ run (FMN_model CM (LogStore_class _) m) s0 evs = Ok (s, l) /\
    - l <= - ln (source_prob q 0 evs) + INR (1 + c * d) * (INR L * learn_any k n + INR C * ln 2 + ln (INR (Nat.log2 (1 + n / 2 ^ m) + 1)))
           + INR (1 + 2 * c * d) * ln 2 + INR (pred d) * ln (3 / 2).
Proof. exact fmn_of_ctw_kt. Qed.
Print Assumptions C111_fmn_ctw.

Theorem C111_fmn_ctw_sad : forall A, NoDup A -> A <> [] -> let k := length A in let fresh := sad_init (Z.of_nat k) in
  forall cps m, Forall (fun c => c mod 2 ^ m = 0)%nat cps ->
  forall binary K D, NoDup K -> In 0%Z K -> (binary = true -> incl K [0; 1]%Z) -> (0 < D)%nat ->
  let CM := CTW_model SAD_model fresh binary in let cfresh := ctw_init fresh (Z.of_nat D) in
  forall L C q evs, (forall t, tree_of (memoryless A) K D L C (q t)) -> changes_only q cps ->
  Forall (fun e => symbol_of A e /\ incl (ev_hist e) K) evs -> 0 < source_prob q 0 evs ->
  let n := length evs in let d := levels m n in let c := length cps in
  exists s0 s l, fmn_init (LogStore_class _) m cfresh = Ok s0 /\ run (FMN_model CM (LogStore_class _) m) s0 evs = Ok (s, l) /\
    - l <= - ln (source_prob q 0 evs) + INR (1 + c * d) * (INR L * sad_learn k n + INR C * ln 2 + ln (INR (Nat.log2 (1 + n / 2 ^ m) + 1)))
           + INR (1 + 2 * c * d) * ln 2 + INR (pred d) * ln (3 / 2).
Proof. exact fmn_of_ctw_sad. Qed.
Print Assumptions C111_fmn_ctw_sad.

(** The same computed with rounding: KT, *)
Theorem C111_kt_rounded : forall F u big max, accurate F u big max -> 0 <= u <= / 64 -> forall tiny, divides F u tiny ->
  forall A, NoDup A -> let k := length A in (2 <= k)%nat -> forall seq h, incl seq A -> seq <> [] -> let n := length seq in
  forall theta, distribution A theta -> 0 < Rprod (map theta seq) ->
  32 * (INR n + INR k) * u <= 1 -> tiny <= / (2 * INR k * INR n) -> 2 * INR n + 4 <= big ->
  INR n * kt_worst k n + 2 <= big -> let loss := INR n * (kt_off u k n + u * (INR n * kt_worst k n + 2)) in loss <= 1 ->
  exists f1 x v, fkt_init F A = Ok f1 /\ fp_update_seq F (FKT_model F) f1 seq h 1 = Ok (x, h, v) /\
    - v <= - ln (Rprod (map theta seq)) + ((INR k - 1) / 2 * ln (INR n) + INR k * ln (INR k) + / 8) + loss.
Proof. exact fkt_learns. Qed.
Print Assumptions C111_kt_rounded.

(** and FMN over CTW over KT. *)
Theorem C111_fmn_ctw_rounded : forall F u big max, accurate F u big max -> 0 <= u <= / 64 -> forall tiny, divides F u tiny ->
  forall A, NoDup A -> let k := length A in (2 <= k)%nat -> forall seq h, incl seq A -> seq <> [] ->
  let n := length seq in let evs := events_from h seq 1 in
  forall K D, NoDup K -> In 0%Z K -> (0 < D)%nat -> incl seq K -> incl h K ->
  forall Lv Cs q cps m, (forall t, tree_of (memoryless A) K D Lv Cs (q t)) -> changes_only q cps ->
  Forall (fun c => c mod 2 ^ m = 0)%nat cps -> 0 < source_prob q 0 evs ->
  let d := levels m n in let c := length cps in let keeps := (Nat.log2 (n + 1) + 1)%nat in
  let L := kt_worst k (2 * n) in let eps := ctw_off u (2 * n) D L (kt_off u k (2 * n)) in
  roomy u big tiny k D (2 * n) -> fmn_room u big max n keeps L eps ->
  exists f1 s0 s v, fkt_init F A = Ok f1 /\
    let C := LogStore_class _ in ffmn_init F C m (ctw_init f1 (Z.of_nat D)) = Ok s0 /\
    fp_update_seq F (FFMN_model F (FCTW_model F (FKT_model F) f1 false) C m) s0 seq h 1 = Ok (s, h, v) /\
    - v <= - ln (source_prob q 0 evs) + INR (1 + c * d) * (INR Lv * learn_any k n + INR Cs * ln 2 + ln (INR keeps))
           + INR (1 + 2 * c * d) * ln 2 + INR (pred d) * ln (3 / 2) + INR n * (23 * fmn_loss u n keeps L eps + 2 * eps).
Proof. exact fmn_ctw_any. Qed.
Print Assumptions C111_fmn_ctw_rounded.

(** Three symbols: evenly distributed for four steps; then the last one is repeated with probability 1/2. *)
Definition C111_A : list Z := [0; 1; 2]%Z.
Definition C111_even (a : Z) : R := / 3.
Definition C111_lean (a : Z) : R := if (a =? 0)%Z then / 2 else / 4.
Definition C111_repeat (v : list Z) (a : Z) : R :=
  match v with [b] => if existsb (Z.eqb b) C111_A then if (a =? b)%Z then / 2 else / 4 else / 3 | _ => / 3 end.
Definition C111_seq : list Z := [0; 1; 2; 0; 0; 0; 1]%Z.
Definition C111_q (t : nat) (e : event) : R := if (t <? 4)%nat then / 3 else if (ev_sym e =? 0)%Z then / 2 else / 4.

Example C111_ex : NoDup C111_A /\ (2 <= length C111_A)%nat /\ distribution C111_A C111_even /\ distribution C111_A C111_lean /\
  incl C111_seq C111_A /\ C111_seq <> [] /\ Rprod (map C111_lean C111_seq) = / 1024 /\
  (forall t, memoryless C111_A (C111_q t)) /\ changes_only C111_q [4%nat] /\ Forall (fun c => c mod 2 ^ 2 = 0)%nat [4%nat] /\
  Forall (fun e => symbol_of C111_A e /\ incl (ev_hist e) C111_A) (events_from [] C111_seq 1) /\
  source_prob C111_q 0 (events_from [] C111_seq 1) = / 1296.
Proof.
  assert (H3 : distribution C111_A C111_even).
  { split; [intros a; unfold C111_even; lra|]. unfold C111_A, C111_even, Rsum. cbn. lra. }
  assert (HL : distribution C111_A C111_lean).
  { split; [intros a; unfold C111_lean; destruct (a =? 0)%Z; lra|]. unfold C111_A, C111_lean, Rsum. cbn. lra. }
  assert (HI : incl C111_seq C111_A) by (intros z Hz; cbn in Hz |- *; tauto).
  split; [repeat constructor; cbn; intuition discriminate|]. split; [cbn; lia|]. split; [exact H3|]. split; [exact HL|]. split; [exact HI|].
  split; [discriminate|]. split; [unfold C111_seq, C111_lean; cbn; lra|]. split; [|split; [|split; [|split]]].
  - intros t. unfold C111_q. destruct (t <? 4)%nat; [exists C111_even|exists C111_lean]; (split; [assumption|reflexivity]).
  - intros t H e. unfold C111_q. destruct (Nat.ltb_spec (S t) 4), (Nat.ltb_spec t 4); try reflexivity; [lia|]. destruct H. left. lia.
  - repeat constructor.
  - pose proof (alpha_events C111_A C111_A C111_seq [] HI HI (incl_nil_l _)) as H. eapply Forall_impl; [|exact H].
    intros e (G1 & [_ G2] & G3). split; [split; [exact G1|symmetry; exact G3]|exact G2].
  - unfold source_prob, C111_seq, C111_q. cbn. lra.
Qed.

(** A tree whose leaves remember the last symbol, and repeat it with probability 1/2. *)
Definition C111_r (e : event) : R := C111_repeat (leaf_at C111_A [] (Branch [Leaf; Leaf; Leaf]) (recent 8 (ev_hist e))) (ev_sym e).
Definition C111_t (t : nat) : event -> R := if (t <? 4)%nat then fun _ => / 3 else C111_r.

Example C111_tree_ex : (forall t, tree_of (memoryless C111_A) C111_A 8 3 4 (C111_t t)) /\ changes_only C111_t [4%nat] /\
  source_prob C111_t 0 (events_from [] C111_seq 1) = / 1296.
Proof.
  pose proof (proj1 (proj2 (proj2 C111_ex))) as H3. split; [|split].
  - intros t. unfold C111_t. destruct (t <? 4)%nat.
    + exists (fun _ e => C111_even (ev_sym e)), Leaf. split; [constructor|]. split; [cbn; lia|]. split; [cbn; lia|]. split; [|reflexivity].
      intros _. exists C111_even. split; [exact H3|reflexivity].
    + exists (fun v e => C111_repeat v (ev_sym e)), (Branch [Leaf; Leaf; Leaf]).
      split; [repeat constructor|]. split; [cbn; lia|]. split; [cbn; lia|]. split; [|reflexivity].
      intros v. exists (C111_repeat v). split; [|reflexivity]. destruct v as [|b [|b2 v]]; [exact H3| |exact H3].
      unfold C111_repeat, distribution. destruct (existsb (Z.eqb b) C111_A) eqn:E; [|exact H3]. split.
      { intros a. destruct (a =? b)%Z; lra. }
      apply existsb_exists in E as (x & Hx & E). apply Z.eqb_eq in E. subst x. unfold Rsum.
      destruct Hx as [<- | [<- | [<- | []]]]; cbn; lra.
  - intros t H e. unfold C111_t. destruct (Nat.ltb_spec (S t) 4), (Nat.ltb_spec t 4); try reflexivity; [lia|]. destruct H. left. lia.
  - unfold source_prob, C111_seq, C111_t, C111_r, C111_repeat. cbn. lra.
Qed.

(** With 52 bits, three symbols, depth 8 and these seven symbols, the room that [C111_kt_rounded] and
    [C111_fmn_ctw_rounded] ask for is there, and the errors are below a millionth. *)
Example C111_room_ex : let u := powerRZ 2 (-52) in let big := 10000 in let tiny := / 1000 in let max := Z.to_nat (2 ^ 52) in
  let n := 7%nat in let L := kt_worst 3 n in let L2 := kt_worst 3 (2 * n) in
  let eps2 := ctw_off u (2 * n) 8 L2 (kt_off u 3 (2 * n)) in let d := (Nat.log2 (n + 1) + 1)%nat in
  accurate (chopped 52) u big max /\ 0 <= u <= / 64 /\ divides (chopped 52) u tiny /\
  32 * (INR n + INR 3) * u <= 1 /\ tiny <= / (2 * INR 3 * INR n) /\ 2 * INR n + 4 <= big /\
  INR n * L + 2 <= big /\ INR n * (kt_off u 3 n + u * (INR n * L + 2)) <= / 1000000000 /\
  roomy u big tiny 3 8 (2 * n) /\ fmn_room u big max n d L2 eps2 /\ INR n * (23 * fmn_loss u n d L2 eps2 + eps2) <= / 1000000.
Proof.
  destruct any_example as (H1 & H2 & H3 & H4 & H5 & H6 & _ & _ & _ & H10 & H11 & H12). cbv zeta.
  assert (I7 : INR 7 = 7) by (cbn [INR]; lra). assert (I3 : INR 3 = 3) by (cbn [INR]; lra).
  repeat (split; [assumption|]). split; [rewrite I7, I3; change (powerRZ 2 (-52)) with (/ 2 ^ 52); assert (0 < / 2 ^ 52) by (apply Rinv_0_lt_compat, pow_lt; lra); apply Rmult_le_reg_r with (2 ^ 52); [apply pow_lt; lra|]; rewrite Rmult_assoc, Rinv_l by (apply pow_nonzero; lra); lra|].
  split; [rewrite I7, I3; lra|]. split; [rewrite I7; lra|]. repeat (split; [assumption|]). assumption.
Qed.
