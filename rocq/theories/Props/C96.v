(** C96: combinations of PTW, FMN and CTW track sources that change. *)
From Coq Require Import Lra.
From Verif Require Import Model.KT Model.CTW Model.PTW Model.FMN Spec.CombinedSpec Spec.PTWSpec Spec.FMNSpec.
From Verif Require Import Proofs.KTFacts Proofs.KTBinFacts Proofs.CombinedFacts Proofs.CombinedTop Proofs.CombinedTree.
Open Scope R_scope.

(** For any model [M]: if it learns each source of a class at the price [price n], then PTW over it
    tracks a source that moves within the class at the times [cps], paying the price once for each of
    1 + k d segments, and O(k d) bits. *)
Theorem C96_ptw : forall St (M : model St) A okh okw Inv, steps M A okh okw Inv -> forall fresh, Inv fresh ->
  forall src price (ok : event -> Prop), (forall e, ok e -> ok_event A okh okw e) -> learns M fresh ok src price ->
  (forall a b, (a <= b)%nat -> price a <= price b) -> (forall n, 0 <= price n) ->
  forall q, (forall t e, 0 <= q t e) -> (forall t, src (q t)) -> forall cps, changes_only q cps ->
  forall m, Forall (fun c => c mod 2 ^ m = 0)%nat cps -> forall evs, Forall ok evs -> 0 < source_prob q 0 evs ->
  let d := levels m (length evs) in let k := length cps in
  exists s l, run (PTW_model M m fresh) (ptw_init m fresh) evs = Ok (s, l) /\
    - l <= - ln (source_prob q 0 evs) + INR (1 + k * d) * price (length evs)
           + INR (1 + 2 * k * d) * ln 2 + INR (pred d) * ln (3 / 2).
Proof. exact @ptw_tracks. Qed.
Print Assumptions C96_ptw.

(** FMN over it likewise; it pays for the number of models kept as well. *)
Theorem C96_fmn : forall St (M : model St) A okh okw Inv, steps M A okh okw Inv -> forall fresh, Inv fresh ->
  forall src price (ok : event -> Prop), (forall e, ok e -> ok_event A okh okw e) -> learns M fresh ok src price ->
  (forall a b, (a <= b)%nat -> price a <= price b) -> (forall n, 0 <= price n) ->
  forall q, (forall t e, 0 <= q t e) -> (forall t, src (q t)) -> forall cps, changes_only q cps ->
  forall m, Forall (fun c => c mod 2 ^ m = 0)%nat cps -> forall evs, Forall ok evs -> 0 < source_prob q 0 evs ->
  let n := length evs in let d := levels m n in let k := length cps in
  exists s0 s l, fmn_init (LogStore_class St) m fresh = Ok s0 /\ run (FMN_model M (LogStore_class St) m) s0 evs = Ok (s, l) /\
    - l <= - ln (source_prob q 0 evs) + INR (1 + k * d) * (price n + ln (INR (Nat.log2 (1 + n / 2 ^ m) + 1)))
           + INR (1 + 2 * k * d) * ln 2 + INR (pred d) * ln (3 / 2).
Proof. exact @fmn_tracks. Qed.
Print Assumptions C96_fmn.

(** CTW over the binary KT estimator learns the tree sources of at most [L] leaves and cost [C]. *)
Theorem C96_ctw_learns : forall binary K D, NoDup K -> In 0%Z K -> (binary = true -> incl K [0; 1]%Z) -> (0 < D)%nat ->
  forall L C, learns (CTW_model KTB_model ktb_init binary) (ctw_init ktb_init (Z.of_nat D)) (bit_after K) (tree_sources K D L C)
    (fun n => INR L * learn n + INR C * ln 2).
Proof. exact ctw_learns. Qed.
Print Assumptions C96_ctw_learns.

(** PTW over CTW (PTW_CTW of z.py, with the history given): the tree and its biases change at [cps]. *)
Theorem C96_ptw_ctw : forall binary K D, NoDup K -> In 0%Z K -> (binary = true -> incl K [0; 1]%Z) -> (0 < D)%nat ->
  forall L C q cps m, (forall t, tree_sources K D L C (q t)) -> changes_only q cps -> Forall (fun c => c mod 2 ^ m = 0)%nat cps ->
  forall evs, Forall (bit_after K) evs -> 0 < source_prob q 0 evs ->
  let d := levels m (length evs) in let k := length cps in
  let CM := CTW_model KTB_model ktb_init binary in let fresh := ctw_init ktb_init (Z.of_nat D) in
  exists s l, run (PTW_model CM m fresh) (ptw_init m fresh) evs = Ok (s, l) /\
    - l <= - ln (source_prob q 0 evs) + INR (1 + k * d) * (INR L * learn (length evs) + INR C * ln 2)
           + INR (1 + 2 * k * d) * ln 2 + INR (pred d) * ln (3 / 2).
Proof. exact ptw_of_ctw. Qed.
Print Assumptions C96_ptw_ctw.

(** FMN over CTW. *)
Theorem C96_fmn_ctw : forall binary K D, NoDup K -> In 0%Z K -> (binary = true -> incl K [0; 1]%Z) -> (0 < D)%nat ->
  forall L C q cps m, (forall t, tree_sources K D L C (q t)) -> changes_only q cps -> Forall (fun c => c mod 2 ^ m = 0)%nat cps ->
  forall evs, Forall (bit_after K) evs -> 0 < source_prob q 0 evs ->
  let n := length evs in let d := levels m n in let k := length cps in
  let CM := CTW_model KTB_model ktb_init binary in let fresh := ctw_init ktb_init (Z.of_nat D) in
  exists s0 s l, fmn_init (LogStore_class _) m fresh = Ok s0 /\ run (FMN_model CM (LogStore_class _) m) s0 evs = Ok (s, l) /\
    - l <= - ln (source_prob q 0 evs)
           + INR (1 + k * d) * (INR L * learn n + INR C * ln 2 + ln (INR (Nat.log2 (1 + n / 2 ^ m) + 1)))
           + INR (1 + 2 * k * d) * ln 2 + INR (pred d) * ln (3 / 2).
Proof. exact fmn_of_ctw. Qed.
Print Assumptions C96_fmn_ctw.

(** CTW over PTW: one tree, but the bias at each leaf changes at its own times (counted in tosses at that leaf). *)
Theorem C96_ctw_ptw : forall binary K D m, NoDup K -> In 0%Z K -> (binary = true -> incl K [0; 1]%Z) -> (0 < D)%nat ->
  forall theta cps t evs, is_tree K D t -> (forall v i, 0 <= theta v i <= 1) -> (forall v, changes_at (theta v) (cps v)) ->
  (forall v, Forall (fun c => c mod 2 ^ m = 0)%nat (cps v)) -> Forall (bit_after K) evs -> 0 < tossed K D theta t [] evs ->
  let base := ptw_init m ktb_init in
  exists s l, run (CTW_model (PTW_model KTB_model m ktb_init) base binary) (ctw_init base (Z.of_nat D)) evs = Ok (s, l) /\
    - l <= - ln (tossed K D theta t [] evs)
           + Rsum (map (fun v => let n := length (sel (recent D) v evs) in let d := levels m n in let k := length (cps v) in
               INR (1 + k * d) * learn n + INR (1 + 2 * k * d) * ln 2 + INR (pred d) * ln (3 / 2)) (leaves K [] t))
           + INR (cost D t) * ln 2.
Proof. exact ctw_of_ptw. Qed.
Print Assumptions C96_ctw_ptw.

(** Both ways round, the updates are a probability measure. *)
Theorem C96_ptw_ctw_measure : forall binary K D, NoDup K -> In 0%Z K -> (binary = true -> incl K [0; 1]%Z) -> (0 < D)%nat ->
  forall m evs h, Forall (bit_after K) evs -> incl h K ->
  let CM := CTW_model KTB_model ktb_init binary in let fresh := ctw_init ktb_init (Z.of_nat D) in
  exists s l, run (PTW_model CM m fresh) (ptw_init m fresh) evs = Ok (s, l) /\
    Rsum (map (fun a => upd_prob (ptw_update CM m fresh) s a h 1) [0; 1]%Z) = 1.
Proof. exact ptw_of_ctw_measure. Qed.
Print Assumptions C96_ptw_ctw_measure.

Theorem C96_ctw_ptw_measure : forall binary K D m, NoDup K -> In 0%Z K -> (binary = true -> incl K [0; 1]%Z) -> (0 < D)%nat ->
  forall evs h, Forall (bit_after K) evs -> incl h K ->
  let PM := PTW_model KTB_model m ktb_init in let base := ptw_init m ktb_init in
  exists s l, run (CTW_model PM base binary) (ctw_init base (Z.of_nat D)) evs = Ok (s, l) /\
    Rsum (map (fun a => upd_prob (ctw_update PM base binary) s a h 1) [0; 1]%Z) = 1.
Proof. exact ctw_of_ptw_measure. Qed.
Print Assumptions C96_ctw_ptw_measure.

(** But predict of a CTW over PTW (CTW_PTW of z.py) is not: after update(0, []) the predictions of
    0 and 1 sum to more than one. *)
Theorem C96_ctw_ptw_predict_refuted : forall binary, exists s l,
  run (CTW_model (PTW_model KTB_model 0 ktb_init) (ptw_init 0 ktb_init) binary) (ctw_init (ptw_init 0 ktb_init) 1) [Event 0 [] 1] = Ok (s, l) /\
  1 < Rsum (map (fun a => pred_prob (CTW_model (PTW_model KTB_model 0 ktb_init) (ptw_init 0 ktb_init) binary) s a [0%Z]) [0; 1]%Z).
Proof. exact ctw_of_ptw_predict. Qed.
Print Assumptions C96_ctw_ptw_predict_refuted.

(** A fair coin for two tosses; then a chain that repeats its last bit with probability 3/4. *)
Definition C96_theta (v : list Z) : R := match v with [1]%Z => 3 / 4 | _ => / 4 end.
Definition C96_q (t : nat) : event -> R :=
  if (t <? 2)%nat then tree_toss [0; 1]%Z 2 (fun _ => / 2) Leaf else tree_toss [0; 1]%Z 2 C96_theta (Branch [Leaf; Leaf]).
Definition C96_evs : list event := [Event 1 [] 1; Event 1 [1] 1; Event 1 [1; 1] 1; Event 0 [1; 1; 1] 1]%Z.
Example C96_ex : (forall t, tree_sources [0; 1]%Z 2 2 3 (C96_q t)) /\ changes_only C96_q [2%nat] /\
  Forall (fun c => c mod 2 ^ 1 = 0)%nat [2%nat] /\ Forall (bit_after [0; 1]%Z) C96_evs /\
  source_prob C96_q 0 C96_evs = 3 / 64 /\ levels 1 (length C96_evs) = 1%nat.
Proof.
  assert (Hth : forall v, 0 <= C96_theta v <= 1).
  { intros v. unfold C96_theta. destruct v as [|x [|y v]]; [lra| |destruct x as [|[]|]; lra]. destruct x as [|[]|]; lra. }
  split; [|split; [|split; [|split; [|split]]]].
  - intros t. unfold C96_q. destruct (t <? 2)%nat.
    + exists (fun _ => / 2), Leaf. split; [constructor|]. split; [cbn; lia|]. split; [cbn; lia|]. split; [intros; lra|reflexivity].
    + exists C96_theta, (Branch [Leaf; Leaf]). split; [repeat constructor|]. split; [cbn; lia|]. split; [cbn; lia|].
      split; [exact Hth|reflexivity].
  - intros t H e. unfold C96_q. destruct (Nat.ltb_spec (S t) 2), (Nat.ltb_spec t 2); try reflexivity; [lia|].
    destruct H. left. lia.
  - repeat constructor.
  - unfold C96_evs. repeat (apply Forall_cons; [split; [split; [cbn; auto|reflexivity]|intros x Hx; cbn in Hx |- *; tauto]|]). apply Forall_nil.
  - unfold source_prob, C96_evs, C96_q, tree_toss, coin. cbn. lra.
  - reflexivity.
Qed.

(** A tree with two leaves; the coin after a 1 changes its bias after two tosses. *)
Definition C96_bias (v : list Z) (i : nat) : R := match v with [1]%Z => if (i <? 2)%nat then 3 / 4 else / 4 | _ => / 2 end.
Example C96_tossed_ex : let t := Branch [Leaf; Leaf] in is_tree [0; 1]%Z 2 t /\ (forall v i, 0 <= C96_bias v i <= 1) /\
  (forall v, changes_at (C96_bias v) [2%nat]) /\ Forall (bit_after [0; 1]%Z) C96_evs /\
  tossed [0; 1]%Z 2 C96_bias t [] C96_evs = 27 / 128.
Proof.
  intros t. split; [repeat constructor|]. split; [|split; [|split]].
  - intros v i. unfold C96_bias. destruct v as [|x v]; [lra|]. destruct x as [|[]|]; destruct v; try lra. destruct (i <? 2)%nat; lra.
  - intros v i H. unfold C96_bias in H. destruct v as [|x v]; [congruence|]. destruct x as [|[]|]; destruct v; try congruence.
    destruct (Nat.ltb_spec (S i) 2), (Nat.ltb_spec i 2); try congruence; [lia|]. left. lia.
  - exact (proj1 (proj2 (proj2 (proj2 C96_ex)))).
  - unfold tossed, C96_evs, C96_bias, coin. cbn. lra.
Qed.
