(** C115: Averager over models that learn. [ms] pairs each member with its identity; [src k] is the class of
    sources that member [k] learns. *)
From Coq Require Import Lra Lia.
From Verif Require Import Model.KT Model.CTW Model.PTW Model.FMN Model.Averager Spec.SeqSpec Spec.LearnSpec Spec.PTWSpec Spec.FMNSpec.
From Verif Require Import Proofs.ProbFacts Proofs.KTFacts Proofs.FloatsAnyTop Proofs.LearnTop Proofs.MembersTop.
Open Scope R_scope.

(** Averager learns what any of its members learns, at the price of one more choice among them. *)
Theorem C115_learns : forall St (M : model St) A okh okw Inv, steps M A okh okw Inv ->
  forall ms, ms <> [] -> NoDup (map fst ms) -> (forall k x, In (k, x) ms -> Inv x) ->
  forall src price (ok : event -> Prop), (forall e, ok e -> ok_event A okh okw e) ->
  (forall k x, In (k, x) ms -> learns M x ok (src k) price) ->
  exists s0, avg_init ms = Ok s0 /\
    forall r evs, (exists k, In k (map fst ms) /\ src k r) -> Forall ok evs -> 0 < Rprod (map r evs) ->
    exists s l, run (AVG_model M) s0 evs = Ok (s, l) /\
      - l <= - ln (Rprod (map r evs)) + price (length evs) + ln (INR (length ms)).
Proof. exact @avg_completes. Qed.
Print Assumptions C115_learns.

(** PTW over Averager: each segment may have a source of another member. *)
Theorem C115_ptw : forall St (M : model St) A okh okw Inv, steps M A okh okw Inv ->
  forall ms, ms <> [] -> NoDup (map fst ms) -> (forall k x, In (k, x) ms -> Inv x) ->
  forall src price (ok : event -> Prop), (forall e, ok e -> ok_event A okh okw e) ->
  (forall k x, In (k, x) ms -> learns M x ok (src k) price) ->
  (forall a b, (a <= b)%nat -> price a <= price b) -> (forall n, 0 <= price n) ->
  forall q cps m evs, (forall t e, 0 <= q t e) -> (forall t, exists k, In k (map fst ms) /\ src k (q t)) ->
  changes_only q cps -> Forall (fun c => c mod 2 ^ m = 0)%nat cps -> Forall ok evs -> 0 < source_prob q 0 evs ->
  let n := length evs in let d := levels m n in let c := length cps in
  exists s0 s l, avg_init ms = Ok s0 /\ run (PTW_model (AVG_model M) m s0) (ptw_init m s0) evs = Ok (s, l) /\
    - l <= - ln (source_prob q 0 evs) + INR (1 + c * d) * (price n + ln (INR (length ms)))
           + INR (1 + 2 * c * d) * ln 2 + INR (pred d) * ln (3 / 2).
Proof. exact @ptw_avg_tracks. Qed.
Print Assumptions C115_ptw.

(** FMN over Averager. *)
Theorem C115_fmn : forall St (M : model St) A okh okw Inv, steps M A okh okw Inv ->
  forall ms, ms <> [] -> NoDup (map fst ms) -> (forall k x, In (k, x) ms -> Inv x) ->
  forall src price (ok : event -> Prop), (forall e, ok e -> ok_event A okh okw e) ->
  (forall k x, In (k, x) ms -> learns M x ok (src k) price) ->
  (forall a b, (a <= b)%nat -> price a <= price b) -> (forall n, 0 <= price n) ->
  forall q cps m evs, (forall t e, 0 <= q t e) -> (forall t, exists k, In k (map fst ms) /\ src k (q t)) ->
  changes_only q cps -> Forall (fun c => c mod 2 ^ m = 0)%nat cps -> Forall ok evs -> 0 < source_prob q 0 evs ->
  let n := length evs in let d := levels m n in let c := length cps in
  exists s0 f s l, avg_init ms = Ok s0 /\ fmn_init (LogStore_class _) m s0 = Ok f /\
    run (FMN_model (AVG_model M) (LogStore_class _) m) f evs = Ok (s, l) /\
    - l <= - ln (source_prob q 0 evs) + INR (1 + c * d) * (price n + ln (INR (length ms)) + ln (INR (Nat.log2 (1 + n / 2 ^ m) + 1)))
           + INR (1 + 2 * c * d) * ln 2 + INR (pred d) * ln (3 / 2).
Proof. exact @fmn_avg_tracks. Qed.
Print Assumptions C115_fmn.

(** Averager over CTWs over KT of several depths: no need to know the depth of the tree. *)
Theorem C115_ctw_kt : forall A, NoDup A -> (2 <= length A)%nat -> forall binary K, NoDup K -> In 0%Z K -> (binary = true -> incl K [0; 1]%Z) ->
  forall depths, depths <> [] -> NoDup (map fst depths) -> Forall (fun kd => 0 < snd kd)%nat depths -> forall L C,
  exists s0, avg_init (map (fun kd => (fst kd, ctw_init (kt_init A) (Z.of_nat (snd kd)))) depths) = Ok s0 /\
    forall r evs, (exists D, In D (map snd depths) /\ tree_of (memoryless A) K D L C r) ->
    Forall (fun e => symbol_of A e /\ incl (ev_hist e) K) evs -> 0 < Rprod (map r evs) ->
    exists s l, run (AVG_model (CTW_model KT_model (kt_init A) binary)) s0 evs = Ok (s, l) /\
      - l <= - ln (Rprod (map r evs)) + (INR L * learn_any (length A) (length evs) + INR C * ln 2) + ln (INR (length depths)).
Proof. exact avg_ctw_kt_runs. Qed.
Print Assumptions C115_ctw_kt.

(** FMN over such an Averager. *)
Theorem C115_fmn_ctw_kt : forall A, NoDup A -> (2 <= length A)%nat -> forall binary K, NoDup K -> In 0%Z K -> (binary = true -> incl K [0; 1]%Z) ->
  forall depths, depths <> [] -> NoDup (map fst depths) -> Forall (fun kd => 0 < snd kd)%nat depths ->
  forall L C q cps m evs, (forall t, exists D, In D (map snd depths) /\ tree_of (memoryless A) K D L C (q t)) ->
  changes_only q cps -> Forall (fun c => c mod 2 ^ m = 0)%nat cps -> Forall (fun e => symbol_of A e /\ incl (ev_hist e) K) evs ->
  0 < source_prob q 0 evs -> let n := length evs in let d := levels m n in let c := length cps in
  exists s0 f s l, avg_init (map (fun kd => (fst kd, ctw_init (kt_init A) (Z.of_nat (snd kd)))) depths) = Ok s0 /\
    fmn_init (LogStore_class _) m s0 = Ok f /\
    run (FMN_model (AVG_model (CTW_model KT_model (kt_init A) binary)) (LogStore_class _) m) f evs = Ok (s, l) /\
    - l <= - ln (source_prob q 0 evs)
           + INR (1 + c * d) * (INR L * learn_any (length A) n + INR C * ln 2 + ln (INR (length depths)) + ln (INR (Nat.log2 (1 + n / 2 ^ m) + 1)))
           + INR (1 + 2 * c * d) * ln 2 + INR (pred d) * ln (3 / 2).
Proof. exact fmn_avg_ctw_kt. Qed.
Print Assumptions C115_fmn_ctw_kt.

(** Three symbols and members of depths 1 and 3. The first four symbols are uniform; then 0 has probability
    1/2 and 1 and 2 have 1/4. *)
Definition C115_A : list Z := [0; 1; 2]%Z.
Definition C115_depths : list (Z * nat) := [(10%Z, 1%nat); (11%Z, 3%nat)].
Definition C115_lean (a : Z) : R := if (a =? 0)%Z then / 2 else / 4.
Definition C115_q (t : nat) (e : event) : R := if (t <? 4)%nat then / 3 else C115_lean (ev_sym e).
Definition C115_seq : list Z := [2; 0; 1; 0; 2; 0; 0; 1]%Z.

Example C115_ex : NoDup C115_A /\ NoDup (map fst C115_depths) /\ Forall (fun kd => 0 < snd kd)%nat C115_depths /\
  Forall (fun e => symbol_of C115_A e /\ incl (ev_hist e) C115_A) (events_from [] C115_seq 1) /\
  (forall t, exists D, In D (map snd C115_depths) /\ tree_of (memoryless C115_A) C115_A D 1 1 (C115_q t)) /\
  changes_only C115_q [4%nat] /\ Forall (fun c => c mod 2 ^ 1 = 0)%nat [4%nat] /\
  source_prob C115_q 0 (events_from [] C115_seq 1) = / 81 * / 64.
Proof.
  assert (H3 : memoryless C115_A (fun _ => / 3)).
  { exists (fun _ => / 3). split; [split; [intros a; lra|unfold C115_A, Rsum; cbn; lra]|reflexivity]. }
  assert (HL : memoryless C115_A (fun e => C115_lean (ev_sym e))).
  { exists C115_lean. split; [|reflexivity].
    split; [intros a; unfold C115_lean; destruct (a =? 0)%Z; lra|]. unfold C115_A, C115_lean, Rsum. cbn. lra. }
  assert (HT : forall r d, memoryless C115_A r -> tree_of (memoryless C115_A) C115_A d 1 1 r).
  { intros r d Hr. exists (fun _ => r), Leaf. split; [constructor|]. split; [cbn; lia|]. split; [destruct d; cbn; lia|]. split; [intros _; exact Hr|reflexivity]. }
  assert (HI : incl C115_seq C115_A) by (intros z Hz; cbn in Hz |- *; tauto).
  split; [repeat constructor; cbn; intuition discriminate|]. split; [repeat constructor; cbn; intuition discriminate|].
  split; [repeat constructor|]. split; [|split; [|split; [|split]]].
  - pose proof (alpha_events C115_A C115_A C115_seq [] HI HI (incl_nil_l _)) as H. eapply Forall_impl; [|exact H].
    intros e (G1 & [_ G2] & G3). split; [split; [exact G1|symmetry; exact G3]|exact G2].
  - intros t. exists 3%nat. split; [right; left; reflexivity|]. apply HT. unfold C115_q. destruct (t <? 4)%nat; [exact H3|exact HL].
  - intros t H e. unfold C115_q. destruct (Nat.ltb_spec (S t) 4), (Nat.ltb_spec t 4); try reflexivity; [lia|]. destruct H. left. lia.
  - repeat constructor.
  - unfold C115_seq, C115_q, C115_lean. cbn. lra.
Qed.
