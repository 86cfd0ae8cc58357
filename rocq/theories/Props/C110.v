(** C110: models computed with rounding track sources that change. *)
From Coq Require Import Lra Lia.
From Verif Require Import Model.KT Model.CTW Model.PTW Model.FMN Model.Floats Model.FloatsFMN Spec.Prob Spec.FloatsSpec Spec.FloatsNestSpec Spec.FloatsFMNSpec Spec.CombinedSpec Spec.SourceSpec Spec.PTWSpec Spec.SeqSpec.
From Verif Require Import Proofs.CombinedFacts Proofs.CombinedTop Proofs.CTWKTFacts Proofs.FloatsChop Proofs.FloatsFMNKT Proofs.FloatsTracks.
Open Scope R_scope.

(** [M1], computed with rounding, is within [eps] per update of [M2], computed exactly; [M2] learns each
    source of a class at the price [price n]. Then update_seq of [M1] does so too, at the price of the
    rounding errors. *)
Theorem C110_learner : forall F u big max, accurate F u big max -> 0 <= u <= / 64 ->
  forall S1 S2 (M1 : model S1) (M2 : model S2) f1 f2 A okh src price (ok : event -> Prop),
  (forall e, ok e -> ok_event A okh (eq 1) e) -> learns M2 f2 ok src price ->
  forall seq h, Forall ok (events_from h seq 1) -> seq <> [] ->
  forall eps L close r, steady M1 M2 f1 f2 A okh (length seq) eps L close -> 0 <= L -> 0 <= eps ->
  let n := length seq in let evs := events_from h seq 1 in INR n * L + 2 <= big ->
  let loss := INR n * (eps + u * (INR n * L + 2)) in loss <= 1 -> src r -> 0 < Rprod (map r evs) ->
  exists x v, fp_update_seq F M1 f1 seq h 1 = Ok (x, h, v) /\ - v <= - ln (Rprod (map r evs)) + price n + loss.
Proof. exact @learn_total. Qed.
Print Assumptions C110_learner.

(** PTW over [M1], its own sums rounded too, tracks a source that moves within the class at the times [cps]. *)
Theorem C110_ptw : forall F u big max, accurate F u big max -> 0 <= u <= / 64 ->
  forall S1 S2 (M1 : model S1) (M2 : model S2) f1 f2 A okh Inv, steps M2 A okh (eq 1) Inv -> Inv f2 ->
  forall src price (ok : event -> Prop), (forall e, ok e -> ok_event A okh (eq 1) e) -> learns M2 f2 ok src price ->
  (forall a b, (a <= b)%nat -> price a <= price b) -> (forall n, 0 <= price n) ->
  forall seq h, Forall ok (events_from h seq 1) -> seq <> [] ->
  forall q, (forall t e, 0 <= q t e) -> (forall t, src (q t)) -> forall cps, changes_only q cps ->
  forall m, Forall (fun c => c mod 2 ^ m = 0)%nat cps -> let evs := events_from h seq 1 in 0 < source_prob q 0 evs ->
  forall eps L close, let n := length seq in steady M1 M2 f1 f2 A okh n eps L close -> 0 <= L -> 0 <= eps ->
  2 * ptw_size n L 0 + 6 <= big -> 25 * (INR n * ptw_loss u n L 0 eps) <= 1 ->
  let d := levels m n in let k := length cps in
  exists x v, fp_update_seq F (FPTW_model F M1 m f1) (ptw_init m f1) seq h 1 = Ok (x, h, v) /\
    - v <= - ln (source_prob q 0 evs) + INR (1 + k * d) * price n
           + INR (1 + 2 * k * d) * ln 2 + INR (pred d) * ln (3 / 2) + 23 * (INR n * ptw_loss u n L 0 eps).
Proof. exact @fptw_tracks. Qed.
Print Assumptions C110_ptw.

(** FMN over [M1] likewise, with the log store. *)
Theorem C110_fmn : forall F u big max, accurate F u big max -> 0 <= u <= / 64 ->
  forall S1 S2 (M1 : model S1) (M2 : model S2) f1 f2 A okh Inv, steps M2 A okh (eq 1) Inv -> Inv f2 ->
  forall src price (ok : event -> Prop), (forall e, ok e -> ok_event A okh (eq 1) e) -> learns M2 f2 ok src price ->
  (forall a b, (a <= b)%nat -> price a <= price b) -> (forall n, 0 <= price n) ->
  forall seq h, Forall ok (events_from h seq 1) -> seq <> [] ->
  forall q, (forall t e, 0 <= q t e) -> (forall t, src (q t)) -> forall cps, changes_only q cps ->
  forall m, Forall (fun c => c mod 2 ^ m = 0)%nat cps -> let evs := events_from h seq 1 in 0 < source_prob q 0 evs ->
  forall eps L close, let n := length seq in let C := LogStore_class S1 in let keeps := (Nat.log2 (n + 1) + 1)%nat in
  steady M1 M2 f1 f2 A okh (2 * n) eps L close -> 0 <= L -> 0 <= eps -> fmn_room u big max n keeps L eps ->
  let d := levels m n in let k := length cps in
  exists s0 s v, ffmn_init F C m f1 = Ok s0 /\ fp_update_seq F (FFMN_model F M1 C m) s0 seq h 1 = Ok (s, h, v) /\
    - v <= - ln (source_prob q 0 evs) + INR (1 + k * d) * (price n + ln (INR keeps))
           + INR (1 + 2 * k * d) * ln 2 + INR (pred d) * ln (3 / 2) + INR n * (23 * fmn_loss u n keeps L eps + 2 * eps).
Proof. exact @ffmn_tracks. Qed.
Print Assumptions C110_fmn.

(** CTW_KT computed with rounding learns the tree sources of at most [Lv] leaves and cost [Cs]. *)
Theorem C110_ctw : forall F u big max, accurate F u big max -> 0 <= u <= / 64 ->
  forall D seq h, (0 < D)%nat -> incl seq [0; 1]%Z -> incl h [0; 1]%Z -> seq <> [] ->
  forall Lv Cs r, let n := length seq in let evs := events_from h seq 1 in
  let eps := INR n * u * ((2 * INR D + 3) * allowance n) in
  (2 * n + 2 <= max)%nat -> allowance n <= big -> INR n * u * ((INR D + 1) * allowance n) <= 1 ->
  let loss := INR n * (eps + u * (INR n * kt_most n + 2)) in loss <= 1 ->
  tree_sources [0; 1]%Z D Lv Cs r -> 0 < Rprod (map r evs) ->
  exists x v, fp_update_seq F (FCTWKT_model F) (ctwkt_init (Z.of_nat D)) seq h 1 = Ok (x, h, v) /\
    - v <= - ln (Rprod (map r evs)) + (INR Lv * learn n + INR Cs * ln 2) + loss.
Proof. exact ctw_tree. Qed.
Print Assumptions C110_ctw.

(** PTW over CTW_KT: the tree and its biases change at [cps]. *)
Theorem C110_ptw_ctw : forall F u big max, accurate F u big max -> 0 <= u <= / 64 ->
  forall D seq h, (0 < D)%nat -> incl seq [0; 1]%Z -> incl h [0; 1]%Z -> seq <> [] ->
  forall Lv Cs q cps m, (forall t, tree_sources [0; 1]%Z D Lv Cs (q t)) -> changes_only q cps ->
  Forall (fun c => c mod 2 ^ m = 0)%nat cps -> let evs := events_from h seq 1 in 0 < source_prob q 0 evs ->
  let n := length seq in let eps := INR n * u * ((2 * INR D + 3) * allowance n) in let L := kt_most n in
  (2 * n + 2 <= max)%nat -> allowance n <= big -> INR n * u * ((INR D + 1) * allowance n) <= 1 ->
  2 * ptw_size n L 0 + 6 <= big -> 25 * (INR n * ptw_loss u n L 0 eps) <= 1 ->
  let d := levels m n in let k := length cps in let fresh := ctwkt_init (Z.of_nat D) in
  exists x v, fp_update_seq F (FPTW_model F (FCTWKT_model F) m fresh) (ptw_init m fresh) seq h 1 = Ok (x, h, v) /\
    - v <= - ln (source_prob q 0 evs) + INR (1 + k * d) * (INR Lv * learn n + INR Cs * ln 2)
           + INR (1 + 2 * k * d) * ln 2 + INR (pred d) * ln (3 / 2) + 23 * (INR n * ptw_loss u n L 0 eps).
Proof. exact ptw_ctw_tree. Qed.
Print Assumptions C110_ptw_ctw.

(** FMN over CTW_KT. *)
Theorem C110_fmn_ctw : forall F u big max, accurate F u big max -> 0 <= u <= / 64 ->
  forall D seq h, (0 < D)%nat -> incl seq [0; 1]%Z -> incl h [0; 1]%Z -> seq <> [] ->
  forall Lv Cs q cps m, (forall t, tree_sources [0; 1]%Z D Lv Cs (q t)) -> changes_only q cps ->
  Forall (fun c => c mod 2 ^ m = 0)%nat cps -> let evs := events_from h seq 1 in 0 < source_prob q 0 evs ->
  let n := length seq in let eps := INR (2 * n) * u * ((2 * INR D + 3) * allowance (2 * n)) in let L := kt_most (2 * n) in
  let C := LogStore_class ctwkt in let keeps := (Nat.log2 (n + 1) + 1)%nat in
  (4 * n + 2 <= max)%nat -> allowance (2 * n) <= big -> INR (2 * n) * u * ((INR D + 1) * allowance (2 * n)) <= 1 ->
  fmn_room u big max n keeps L eps ->
  let d := levels m n in let k := length cps in
  exists s0 s v, ffmn_init F C m (ctwkt_init (Z.of_nat D)) = Ok s0 /\
    fp_update_seq F (FFMN_model F (FCTWKT_model F) C m) s0 seq h 1 = Ok (s, h, v) /\
    - v <= - ln (source_prob q 0 evs) + INR (1 + k * d) * (INR Lv * learn n + INR Cs * ln 2 + ln (INR keeps))
           + INR (1 + 2 * k * d) * ln 2 + INR (pred d) * ln (3 / 2) + INR n * (23 * fmn_loss u n keeps L eps + 2 * eps).
Proof. exact fmn_ctw_tree. Qed.
Print Assumptions C110_fmn_ctw.

(** Seven bits, depth 8, 52 binary digits: a fair coin for four tosses, then a chain that repeats its
    last bit with probability 3/4. The rounding errors are below a millionth of a nat. *)
Definition C110_theta (v : list Z) : R := match v with [1]%Z => 3 / 4 | _ => / 4 end.
Definition C110_chain : event -> R := tree_toss [0; 1]%Z 8 C110_theta (Branch [Leaf; Leaf]).
Definition C110_q (t : nat) : event -> R := if (t <? 4)%nat then tree_toss [0; 1]%Z 8 (fun _ => / 2) Leaf else C110_chain.
Definition C110_seq : list Z := [0; 1; 1; 0; 0; 0; 1]%Z.

Example C110_ex : incl C110_seq [0; 1]%Z /\ (forall t, tree_sources [0; 1]%Z 8 2 3 (C110_q t)) /\ changes_only C110_q [4%nat] /\
  Forall (fun c => c mod 2 ^ 2 = 0)%nat [4%nat] /\ source_prob C110_q 0 (events_from [] C110_seq 1) = 9 / 1024 /\
  Rprod (map C110_chain (events_from [] C110_seq 1)) = 81 / 16384 /\ levels 2 (length C110_seq) = 1%nat.
Proof.
  assert (Hth : forall v, 0 <= C110_theta v <= 1).
  { intros v. unfold C110_theta. destruct v as [|x [|y v]]; [lra| |destruct x as [|[]|]; lra]. destruct x as [|[]|]; lra. }
  split; [|split; [|split; [|split; [|split; [|split]]]]].
  - intros z Hz. cbn in Hz |- *. tauto.
  - intros t. unfold C110_q, C110_chain. destruct (t <? 4)%nat.
    + exists (fun _ => / 2), Leaf. split; [constructor|]. split; [cbn; lia|]. split; [cbn; lia|]. split; [intros; lra|reflexivity].
    + exists C110_theta, (Branch [Leaf; Leaf]). split; [repeat constructor|]. split; [cbn; lia|]. split; [cbn; lia|].
      split; [exact Hth|reflexivity].
  - intros t H e. unfold C110_q. destruct (Nat.ltb_spec (S t) 4), (Nat.ltb_spec t 4); try reflexivity; [lia|].
    destruct H. left. lia.
  - repeat constructor.
  - unfold source_prob, C110_seq, C110_q, C110_chain, tree_toss, coin. cbn. lra.
  - unfold C110_seq, C110_chain, tree_toss, coin. cbn. lra.
  - reflexivity.
Qed.
Example C110_room_ex : let u := powerRZ 2 (-52) in let n := 7%nat in let L := kt_most n in
  let eps := INR n * u * ((2 * INR 8 + 3) * allowance n) in let loss := INR n * (eps + u * (INR n * L + 2)) in
  accurate (chopped 52) u 2000 (Z.to_nat (2 ^ 52)) /\ 0 <= u <= / 64 /\ (2 * n + 2 <= Z.to_nat (2 ^ 52))%nat /\
  allowance n <= 2000 /\ INR n * u * ((INR 8 + 1) * allowance n) <= 1 /\ loss <= / 1000000 /\
  2 * ptw_size n L 0 + 6 <= 2000 /\ 25 * (INR n * ptw_loss u n L 0 eps) <= / 1000000.
Proof. exact tracks_example. Qed.
(** CTW_KT meets the hypotheses on [M1] and [M2]. *)
Example C110_meets_ex : let u := powerRZ 2 (-52) in let F := chopped 52 in let fresh := ctwkt_init 8 in
  let eps n := INR n * u * ((2 * INR 8 + 3) * allowance n) in
  steps CTWKT_model [0; 1]%Z bit_hist (eq 1) (kctw_inv 8) /\ kctw_inv 8 fresh /\
  learns CTWKT_model fresh (bit_after [0; 1]%Z) (tree_sources [0; 1]%Z 8 2 3) (tree_price 2 3) /\
  (forall e, bit_after [0; 1]%Z e -> ok_event [0; 1]%Z bit_hist (eq 1) e) /\
  steady (FCTWKT_model F) CTWKT_model fresh fresh [0; 1]%Z bit_hist 7 (eps 7%nat) (kt_most 7) (ctw_same u 7 8) /\
  steady (FCTWKT_model F) CTWKT_model fresh fresh [0; 1]%Z bit_hist (2 * 7) (eps (2 * 7)%nat) (kt_most (2 * 7)) (ctw_same u (2 * 7) 8) /\
  fmn_room u 2000 (Z.to_nat (2 ^ 52)) 7 (Nat.log2 (7 + 1) + 1) (kt_most (2 * 7)) (eps (2 * 7)%nat).
Proof. exact tracks_meets. Qed.
