(** C65: CTW over the binary KT estimator competes with every tree source. *)
From Coq Require Import Lra.
From Verif Require Import Model.KT Model.CTW Spec.SourceSpec Proofs.SourceFacts Proofs.SourceCTW.
Open Scope R_scope.

(** [t] is a context tree of depth at most D with a coin of bias [theta v] at each leaf [v]. The log
    loss of CTW exceeds that of the tree source by at most cost * ln 2 for the tree, and for each
    leaf that n > 0 tosses were made at, ln n / 2 + ln 2 for its bias. *)
Theorem C65_ctw_tree_source : forall binary K D theta t evs,
  NoDup K -> In 0%Z K -> (binary = true -> incl K [0; 1]%Z) -> (0 < D)%nat ->
  is_tree K D t -> (forall v, 0 <= theta v <= 1) ->
  unit_bits evs -> Forall (fun e => incl (ev_hist e) K) evs -> 0 < tree_source K theta D t evs ->
  exists s l, run (CTW_model KTB_model ktb_init binary) (ctw_init ktb_init (Z.of_nat D)) evs = Ok (s, l) /\
    - l <= - ln (tree_source K theta D t evs)
           + Rsum (map (fun v => learn (length (sel (recent D) v evs))) (leaves K [] t))
           + INR (cost D t) * ln 2.
Proof. exact ctw_tree_source. Qed.
Print Assumptions C65_ctw_tree_source.

(** The tosses of a tree source, grouped by the leaf at which they are made. *)
Theorem C65_by_leaf : forall K theta D d t evs, NoDup K -> In 0%Z K -> (d <= D)%nat -> is_tree K d t ->
  Forall (fun e => (ev_sym e = 0%Z \/ ev_sym e = 1%Z) /\ incl (ev_hist e) K) evs ->
  tree_source K theta D t evs =
  Rprod (map (fun v => coin_prob (theta v) (map ev_sym (sel (recent D) v evs))) (leaves K [] t)).
Proof. exact tree_source_leaves. Qed.
Print Assumptions C65_by_leaf.

(** A first-order chain: after a 1 the next bit is 1 with probability 3/4, after a 0 with 1/4. *)
Definition C65_tree : ctree := Branch [Leaf; Leaf].
Definition C65_theta (v : list Z) : R := match v with [1]%Z => 3 / 4 | _ => / 4 end.
Definition C65_evs : list event := [Event 1 [] 1; Event 1 [1] 1; Event 1 [1; 1] 1; Event 0 [1; 1; 1] 1]%Z.
Example C65_ex : is_tree [0; 1]%Z 2 C65_tree /\ leaves [0; 1]%Z [] C65_tree = [[0]; [1]]%Z /\
  (forall v, 0 <= C65_theta v <= 1) /\ unit_bits C65_evs /\ Forall (fun e => incl (ev_hist e) [0; 1]%Z) C65_evs /\
  tree_source [0; 1]%Z C65_theta 2 C65_tree C65_evs = 9 / 256 /\
  map (fun v => length (sel (recent 2) v C65_evs)) (leaves [0; 1]%Z [] C65_tree) = [1; 3]%nat /\ cost 2 C65_tree = 3%nat.
Proof.
  split; [repeat constructor|]. split; [reflexivity|].
  split.
  { intros v. unfold C65_theta. destruct v as [|x [|y v]]; [lra| |destruct x as [|[]|]; lra]. destruct x as [|[]|]; lra. }
  split.
  { unfold unit_bits, C65_evs. repeat (apply Forall_cons; [split; [cbn; auto|reflexivity]|]). apply Forall_nil. }
  split.
  { unfold C65_evs. repeat (apply Forall_cons; [intros x Hx; cbn in Hx |- *; tauto|]). apply Forall_nil. }
  split; [|split; reflexivity].
  unfold tree_source, C65_evs, C65_tree. cbn [map]. unfold Rprod. cbn [fold_right].
  unfold recent, coin. cbn. lra.
Qed.
