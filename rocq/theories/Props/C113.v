(** C113: CTW over PTW follows a tree whose sources change, each at times of its own, over any alphabet. *)
From Coq Require Import Lra Lia.
From Verif Require Import Model.KT Model.CTW Model.PTW Spec.LeavesSpec Spec.PTWSpec Spec.SeqSpec.
From Verif Require Import Proofs.ProbFacts Proofs.KTFacts Proofs.FloatsAnyTop Proofs.LearnTop Proofs.LeavesTop.
Open Scope R_scope.

(** Over any base that learns a class of sources: each leaf pays for its own changes and its own symbols only. *)
Theorem C113_learner : forall St (M : model St) A okh Inv, lawful M A okh (fun w => w = 1) Inv -> forall fresh, Inv fresh ->
  forall src price (ok : event -> Prop), (forall e, ok e -> ok_event A okh (fun w => w = 1) e) -> learns M fresh ok src price ->
  (forall a b, (a <= b)%nat -> price a <= price b) -> (forall n, 0 <= price n) -> (forall r e, src r -> 0 <= r e) ->
  forall binary K D, NoDup K -> In 0%Z K -> (binary = true -> incl K [0; 1]%Z) -> (0 < D)%nat ->
  forall m q cps t evs, is_tree K D t -> (forall v i, src (q v i)) ->
  (forall v, changes_only (q v) (cps v)) -> (forall v, Forall (fun c => c mod 2 ^ m = 0)%nat (cps v)) ->
  Forall (fun e => ok e /\ incl (ev_hist e) K) evs -> 0 < emitted K D q t [] evs ->
  let base := ptw_init m fresh in
  exists s l, run (CTW_model (PTW_model M m fresh) base binary) (ctw_init base (Z.of_nat D)) evs = Ok (s, l) /\
    - l <= - ln (emitted K D q t [] evs)
           + Rsum (map (fun v => let n := length (sel (recent D) v evs) in let d := levels m n in let c := length (cps v) in
               INR (1 + c * d) * price n + INR (1 + 2 * c * d) * ln 2 + INR (pred d) * ln (3 / 2)) (leaves K [] t))
           + INR (cost D t) * ln 2.
Proof. exact @ctw_ptw_learner. Qed.
Print Assumptions C113_learner.

(** Over KT. *)
Theorem C113_kt : forall A, NoDup A -> (2 <= length A)%nat ->
  forall binary K D m, NoDup K -> In 0%Z K -> (binary = true -> incl K [0; 1]%Z) -> (0 < D)%nat ->
  forall q cps t evs, is_tree K D t -> (forall v i, memoryless A (q v i)) ->
  (forall v, changes_only (q v) (cps v)) -> (forall v, Forall (fun c => c mod 2 ^ m = 0)%nat (cps v)) ->
  Forall (fun e => symbol_of A e /\ incl (ev_hist e) K) evs -> 0 < emitted K D q t [] evs ->
  let base := ptw_init m (kt_init A) in
  exists s l, run (CTW_model (PTW_model KT_model m (kt_init A)) base binary) (ctw_init base (Z.of_nat D)) evs = Ok (s, l) /\
    - l <= - ln (emitted K D q t [] evs)
           + Rsum (map (fun v => let n := length (sel (recent D) v evs) in let d := levels m n in let c := length (cps v) in
               INR (1 + c * d) * learn_any (length A) n + INR (1 + 2 * c * d) * ln 2 + INR (pred d) * ln (3 / 2)) (leaves K [] t))
           + INR (cost D t) * ln 2.
Proof. exact ctw_ptw_kt. Qed.
Print Assumptions C113_kt.

(** The updates of that model are a probability measure on the next symbol. *)
Theorem C113_kt_measure : forall A, NoDup A -> (2 <= length A)%nat ->
  forall binary K D m, NoDup K -> In 0%Z K -> (binary = true -> incl K [0; 1]%Z) -> (0 < D)%nat ->
  forall evs h, Forall (fun e => symbol_of A e /\ incl (ev_hist e) K) evs -> incl h K ->
  let PM := PTW_model KT_model m (kt_init A) in let base := ptw_init m (kt_init A) in
  exists s l, run (CTW_model PM base binary) (ctw_init base (Z.of_nat D)) evs = Ok (s, l) /\
    Rsum (map (fun a => upd_prob (ctw_update PM base binary) s a h 1) A) = 1.
Proof. exact ctw_ptw_kt_measure. Qed.
Print Assumptions C113_kt_measure.

(** Three symbols and a leaf for each last symbol. The first two symbols after each are uniform; later it is
    repeated with probability 1/2. *)
Definition C113_A : list Z := [0; 1; 2]%Z.
Definition C113_t : ctree := Branch [Leaf; Leaf; Leaf].
Definition C113_repeat (v : list Z) (a : Z) : R :=
  match v with [b] => if existsb (Z.eqb b) C113_A then if (a =? b)%Z then / 2 else / 4 else / 3 | _ => / 3 end.
Definition C113_q (v : list Z) (i : nat) (e : event) : R := if (i <? 2)%nat then / 3 else C113_repeat v (ev_sym e).
Definition C113_seq : list Z := [0; 0; 0; 1; 1; 1; 1; 2]%Z.

Example C113_ex : NoDup C113_A /\ is_tree C113_A 8 C113_t /\ (forall v i, memoryless C113_A (C113_q v i)) /\
  (forall v, changes_only (C113_q v) [2%nat]) /\ Forall (fun c => c mod 2 ^ 1 = 0)%nat [2%nat] /\
  Forall (fun e => symbol_of C113_A e /\ incl (ev_hist e) C113_A) (events_from [] C113_seq 1) /\
  emitted C113_A 8 C113_q C113_t [] (events_from [] C113_seq 1) = / 81 * / 64.
Proof.
  assert (H3 : distribution C113_A (fun _ => / 3)).
  { split; [intros a; lra|]. unfold C113_A, Rsum. cbn. lra. }
  assert (HI : incl C113_seq C113_A) by (intros z Hz; cbn in Hz |- *; tauto).
  split; [repeat constructor; cbn; intuition discriminate|]. split; [repeat constructor|]. split; [|split; [|split; [|split]]].
  - intros v i. unfold C113_q. destruct (i <? 2)%nat; [exists (fun _ => / 3); split; [exact H3|reflexivity]|].
    exists (C113_repeat v). split; [|reflexivity]. destruct v as [|b [|b2 v]]; [exact H3| |exact H3].
    unfold C113_repeat, distribution. destruct (existsb (Z.eqb b) C113_A) eqn:E; [|exact H3]. split.
    { intros a. destruct (a =? b)%Z; lra. }
    apply existsb_exists in E as (x & Hx & E). apply Z.eqb_eq in E. subst x. unfold Rsum.
    destruct Hx as [<- | [<- | [<- | []]]]; cbn; lra.
  - intros v t H e. unfold C113_q. destruct (Nat.ltb_spec (S t) 2), (Nat.ltb_spec t 2); try reflexivity; [lia|]. destruct H. left. lia.
  - repeat constructor.
  - pose proof (alpha_events C113_A C113_A C113_seq [] HI HI (incl_nil_l _)) as H. eapply Forall_impl; [|exact H].
    intros e (G1 & [_ G2] & G3). split; [split; [exact G1|symmetry; exact G3]|exact G2].
  - unfold emitted, C113_seq, C113_q, C113_repeat. cbn. lra.
Qed.
