(** The streams of pomdp.py. *)
From Coq Require Import Lra Lia.
From Verif Require Import Spec.PomdpSpec Proofs.PyFacts.
Open Scope Z_scope.

Lemma facing_cons d a acts : facing d (a :: acts) = facing (if a then d else negb d) acts.
Proof.
  unfold facing. destruct a; cbn [filter negb length]; [reflexivity|].
  rewrite Nat.odd_succ, <- Nat.negb_odd. destruct d, (Nat.odd _); reflexivity.
Qed.

Lemma fold_add_shift l x y : fold_left Z.add l (x + y) = x + fold_left Z.add l y.
Proof. revert y; induction l as [|z l IH]; intros y; cbn [fold_left]; [reflexivity|]. rewrite <- Z.add_assoc. apply IH. Qed.

Lemma position_cons d x a acts : position d x (a :: acts) =
  position (if a then d else negb d) (x + if a then (if d then 1 else -1) else 0) acts.
Proof.
  unfold position. cbn [length seq map fold_left nth firstn]. rewrite <- seq_shift, map_map.
  f_equal.
  - apply map_ext. intros i. cbn [nth firstn]. destruct (nth i acts false); [|reflexivity].
    rewrite facing_cons. reflexivity.
  - unfold facing. cbn [filter length]. rewrite xorb_false_r. reflexivity.
Qed.

Lemma sight_one o a : sight o [a] = snd (observe o a).
Proof.
  destruct o as [[p d]|[p d x]]; cbn [sight observe hw_dir rm_dir rm_dist].
  - rewrite facing_cons. unfold facing. cbn. rewrite xorb_false_r. reflexivity.
  - rewrite facing_cons, position_cons. unfold facing, position. cbn [length seq map fold_left filter Nat.odd].
    rewrite xorb_false_r. destruct a; cbn [snd negb].
    + destruct (x + (if d then 1 else -1) =? 0); reflexivity.
    + rewrite Z.add_0_r. destruct (x =? 0); reflexivity.
Qed.

Lemma sight_cons o a acts : sight o (a :: acts) = sight (fst (observe o a)) acts \/ acts = [].
Proof.
  destruct acts as [|b acts]; [right; reflexivity|left].
  destruct o as [[p d]|[p d x]]; cbn [observe fst snd].
  - cbn [sight hw_dir]. rewrite facing_cons. reflexivity.
  - destruct a; cbn [sight fst rm_dir rm_dist]; rewrite facing_cons, position_cons; [|rewrite Z.add_0_r]; reflexivity.
Qed.

Lemma sights_cons o a acts : sights o (a :: acts) = snd (observe o a) :: sights (fst (observe o a)) acts.
Proof.
  unfold sights. cbn [length seq map firstn]. rewrite sight_one. f_equal.
  rewrite <- seq_shift, map_map. apply map_ext_in. intros i Hi. apply in_seq in Hi.
  cbn [firstn]. destruct (sight_cons o a (firstn (S i) acts)) as [E|E]; [exact E|].
  destruct acts; [cbn in Hi; lia|discriminate E].
Qed.

Lemma sights_length o acts : length (sights o acts) = length acts.
Proof. unfold sights. rewrite map_length, seq_length. reflexivity. Qed.

Lemma p_of_observe o a : p_of (fst (observe o a)) = p_of o.
Proof. destruct o as [[p d]|[p d x]]; destruct a; reflexivity. Qed.

Lemma sights_app o xs ys : sights o (xs ++ ys) =
  sights o xs ++ sights (fold_left (fun o a => fst (observe o a)) xs o) ys.
Proof.
  revert o; induction xs as [|x xs IH]; intros o; [reflexivity|].
  cbn [app]. rewrite !sights_cons. cbn [fold_left app]. rewrite IH. reflexivity.
Qed.

Section gen.
  Context {G : Type} (random : G -> R * G).
  Notation gnext := (gen_next random).
  Notation gtake := (gen_take random).

  Definition at_rest (f : frame) : Prop := f = Begin \/ f = Seen.

  Lemma pair_step o f g : at_rest f ->
    let (u, g') := random g in let a := below (p_of o) u in
    gnext o f g = (a, o, Acted a, g') /\
    gnext o (Acted a) g' = (snd (observe o a), fst (observe o a), Seen, g').
  Proof.
    intros Hf. unfold gen_next, flip. destruct Hf as [-> | ->]; destruct (random g) as [u g'];
      fold (below (p_of o) u); (split; [reflexivity|]); destruct (observe o (below (p_of o) u)); reflexivity.
  Qed.

  Lemma gen_pairs n o f g : at_rest f ->
    exists o' f' g', gtake (2 * n) o f g =
      (let acts := map (below (p_of o)) (draws random n g) in interleave acts (sights o acts), o', f', g') /\ at_rest f'.
  Proof.
    revert o f g; induction n as [|n IH]; intros o f g Hf.
    - exists o, f, g. split; [reflexivity|exact Hf].
    - replace (2 * S n)%nat with (S (S (2 * n))) by lia. cbn [gen_take draws].
      pose proof (pair_step o f g Hf) as Hp. destruct (random g) as [u g1]. cbn zeta in Hp. destruct Hp as (E1 & E2).
      rewrite E1, E2.
      destruct (IH (fst (observe o (below (p_of o) u))) Seen g1) as (o' & f' & g' & E & Hf'); [right; reflexivity|].
      rewrite E, p_of_observe. exists o', f', g'. split; [|exact Hf'].
      cbn [map]. rewrite sights_cons. reflexivity.
  Qed.

  Lemma gen_prefix m k o f g : exists o1 f1 g1 o2 f2 g2 bs,
    gtake (m + k) o f g = (bs, o1, f1, g1) /\ gtake m o f g = (firstn m bs, o2, f2, g2).
  Proof.
    revert o f g; induction m as [|m IH]; intros o f g.
    - cbn [Nat.add]. destruct (gtake k o f g) as [[[bs o1] f1] g1] eqn:E. do 7 eexists. split; reflexivity.
    - cbn [Nat.add gen_take]. destruct (gnext o f g) as [[[b o0] f0] g0].
      destruct (IH o0 f0 g0) as (o1 & f1 & g1 & o2 & f2 & g2 & bs & E1 & E2). rewrite E1, E2.
      do 7 eexists. split; reflexivity.
  Qed.

  (** a stream of any length, from a new iterator *)
  Lemma gen_stream m n o g : (m <= 2 * n)%nat ->
    exists o' f' g', gtake m o Begin g =
      (firstn m (let acts := map (below (p_of o)) (draws random n g) in interleave acts (sights o acts)), o', f', g').
  Proof.
    intros Hm. destruct (gen_pairs n o Begin g (or_introl eq_refl)) as (o' & f' & g' & E & _).
    destruct (gen_prefix m (2 * n - m) o Begin g) as (o1 & f1 & g1 & o2 & f2 & g2 & bs & E1 & E2).
    replace (m + (2 * n - m))%nat with (2 * n)%nat in E1 by lia. rewrite E in E1. injection E1 as <- <- <- <-.
    exists o2, f2, g2. exact E2.
  Qed.

  (** ** Switcher *)
  Context (choice : nat -> G -> nat * G).
  Hypothesis Hchoice : forall n g, (0 < n)%nat -> (fst (choice n g) < n)%nat.

  Definition swf (s : switcher) : Prop :=
    sw_modes s <> [] /\ Forall (fun m => (m < length (sw_objs s))%nat) (sw_modes s).

  Lemma pick_ok modes g : modes <> [] -> exists m g', pick choice modes g = Ok (m, Begin, g') /\ In m modes.
  Proof.
    intros Hne. unfold pick. destruct modes as [|m0 ms]; [congruence|].
    pose proof (Hchoice (length (m0 :: ms)) g ltac:(cbn; lia)) as Hc. destruct (choice _ g) as [i g']. cbn [fst] in Hc.
    destruct (nth_error (m0 :: ms) i) as [m|] eqn:E; [|apply nth_error_None in E; lia].
    exists m, g'. split; [reflexivity|]. eapply nth_error_In, E.
  Qed.

  (** the state at a pair boundary: about to draw for a switch, or not started *)
  Definition boundary (s : switcher) (sf : sframe) : Prop :=
    match sf with SBegin => True | SEnd m f => In m (sw_modes s) /\ at_rest f | SMid _ _ => False end.

  Lemma sw_pair s sf g : swf s -> boundary s sf ->
    exists m o a f g1 g2 s1,
      sw_next random choice s sf g = Ok (a, s1, SMid m f, g1) /\
      sw_next random choice s1 (SMid m f) g1 = Ok (snd (observe o a),
        Switcher (sw_p s) (list_set (sw_objs s) m (fst (observe o a))) (sw_modes s), SEnd m Seen, g2) /\
      nth_error (sw_objs s) m = Some o /\ In m (sw_modes s) /\
      (forall m', sf = SEnd m' Seen \/ sf = SEnd m' Begin ->
         (forall g', 0 <= fst (random g'))%R -> (sw_p s <= 0)%R -> m = m').
  Proof.
    intros (Hne & Hin) HB.
    assert (Hloop : forall m0 f0 g0, In m0 (sw_modes s) -> at_rest f0 ->
      exists m o a f g1 g2 s1,
        sw_loop random choice s m0 f0 g0 = Ok (a, s1, SMid m f, g1) /\
        sw_next random choice s1 (SMid m f) g1 = Ok (snd (observe o a),
          Switcher (sw_p s) (list_set (sw_objs s) m (fst (observe o a))) (sw_modes s), SEnd m Seen, g2) /\
        nth_error (sw_objs s) m = Some o /\ In m (sw_modes s) /\
        ((forall g', 0 <= fst (random g'))%R -> (sw_p s <= 0)%R -> m = m0)).
    { intros m0 f0 g0 Hm0 Hf0. unfold sw_loop.
      destruct (flip random (sw_p s) g0) as [hit g1] eqn:EF.
      assert (Hp : exists m f g2, (if hit then pick choice (sw_modes s) g1 else Ok (m0, f0, g1)) = Ok (m, f, g2) /\
        In m (sw_modes s) /\ at_rest f /\ (hit = false -> m = m0)).
      { destruct hit.
        - destruct (pick_ok (sw_modes s) g1 Hne) as (m & g2 & E & Hm). exists m, Begin, g2.
          split; [exact E|]. split; [exact Hm|]. split; [left; reflexivity|discriminate].
        - exists m0, f0, g1. auto. }
      destruct Hp as (m & f & g2 & -> & Hm & Hf & Hhit). cbn [bind].
      destruct (nth_error (sw_objs s) m) as [o|] eqn:Eo.
      2:{ apply nth_error_None in Eo. rewrite Forall_forall in Hin. specialize (Hin m Hm). lia. }
      unfold send at 1. rewrite Eo.
      pose proof (pair_step o f g2 Hf) as Hps. destruct (random g2) as [u g3]. cbn zeta in Hps.
      destruct Hps as (E1 & E2). rewrite E1. cbn [bind].
      exists m, o, (below (p_of o) u), (Acted (below (p_of o) u)), g3, g3.
      exists (Switcher (sw_p s) (list_set (sw_objs s) m o) (sw_modes s)).
      assert (Hlt : (m < length (sw_objs s))%nat) by (apply nth_error_Some; rewrite Eo; discriminate).
      assert (Hset : list_set (sw_objs s) m o = sw_objs s).
      { clear -Eo. revert m Eo. generalize (sw_objs s) as l. induction l as [|x l IH]; intros [|m] E; cbn in *; try discriminate.
        - injection E as ->. reflexivity.
        - f_equal. apply IH, E. }
      split; [reflexivity|]. split.
      { cbn [sw_next]. unfold send. cbn [sw_objs sw_p sw_modes]. rewrite Hset, Eo, E2. reflexivity. }
      split; [exact Eo|]. split; [exact Hm|].
      intros Hpos Hps. apply Hhit. unfold flip in EF. pose proof (Hpos g0) as Hu. destruct (random g0) as [u0 g0']. cbn [fst] in Hu.
      destruct (Rlt_dec u0 (sw_p s)); [lra|]. injection EF as <- <-. reflexivity. }
    destruct sf as [|m f|m f]; cbn [boundary] in HB; [|contradiction|].
    - cbn [sw_next]. destruct (pick_ok (sw_modes s) g Hne) as (m & g2 & -> & Hm). cbn [bind].
      destruct (Hloop m Begin g2 Hm (or_introl eq_refl)) as (m1 & o & a & f & g3 & g4 & s1 & E1 & E2 & E3 & E4 & _).
      exists m1, o, a, f, g3, g4, s1. repeat split; auto. intros m' [H|H]; discriminate H.
    - destruct HB as (Hm & Hf). cbn [sw_next].
      destruct (Hloop m f g Hm Hf) as (m1 & o & a & f' & g3 & g4 & s1 & E1 & E2 & E3 & E4 & E5).
      exists m1, o, a, f', g3, g4, s1. repeat split; auto. intros m' [H|H]; injection H as <- _; apply E5.
  Qed.

  Lemma nth_list_set_same {A} (l : list A) k x : (k < length l)%nat -> nth_error (list_set l k x) k = Some x.
  Proof. revert k; induction l as [|y l IH]; intros [|k] H; cbn in *; try lia; [reflexivity|]. apply IH. lia. Qed.
  Lemma nth_list_set_other {A} (l : list A) k j x : k <> j -> nth_error (list_set l k x) j = nth_error l j.
  Proof. revert k j; induction l as [|y l IH]; intros [|k] [|j] H; cbn; try reflexivity; [congruence|]. apply IH. congruence. Qed.
  Lemma length_list_set {A} (l : list A) k x : length (list_set l k x) = length l.
  Proof. revert k; induction l as [|y l IH]; intros [|k]; cbn; auto. Qed.

  Lemma sw_stream n s sf g : swf s -> boundary s sf ->
    exists ks acts obs s' sf' g', length ks = n /\ length acts = n /\ length obs = n /\
      Forall (fun m => In m (sw_modes s)) ks /\
      sw_take random choice (2 * n) s sf g = Ok (interleave acts obs, s', sf', g') /\ swf s' /\ boundary s' sf' /\
      (forall m o, nth_error (sw_objs s) m = Some o ->
         at_times m ks obs = sights o (at_times m ks acts)) /\
      ((forall g', 0 <= fst (random g'))%R -> (sw_p s <= 0)%R ->
         forall m, (sf = SEnd m Seen \/ sf = SEnd m Begin -> Forall (eq m) ks) /\
                   (sf = SBegin -> exists m0, Forall (eq m0) ks)).
  Proof.
    revert s sf g; induction n as [|n IH]; intros s sf g Hs Hb.
    - exists [], [], [], s, sf, g. repeat split; auto; try apply Hs. exists 0%nat. constructor.
    - destruct (sw_pair s sf g Hs Hb) as (m & o & a & f & g1 & g2 & s1 & E1 & E2 & Eo & Hm & Hno).
      set (s2 := Switcher (sw_p s) (list_set (sw_objs s) m (fst (observe o a))) (sw_modes s)) in *.
      assert (Hs2 : swf s2). { destruct Hs as (H1 & H2). split; [exact H1|]. cbn [s2 sw_objs sw_modes].
        rewrite length_list_set. exact H2. }
      destruct (IH s2 (SEnd m Seen) g2 Hs2) as (ks & acts & obs & s' & sf' & g' & L1 & L2 & L3 & Hk & E & Hs' & Hb' & Hat & Hns).
      { cbn [boundary]. split; [exact Hm|right; reflexivity]. }
      exists (m :: ks), (a :: acts), (snd (observe o a) :: obs), s', sf', g'.
      split; [cbn; congruence|]. split; [cbn; congruence|]. split; [cbn; congruence|].
      split; [constructor; assumption|]. split; [|split; [exact Hs'|split; [exact Hb'|split]]].
      + replace (2 * S n)%nat with (S (S (2 * n))) by lia. cbn [sw_take]. rewrite E1. cbn [bind]. rewrite E2. cbn [bind].
        fold s2. rewrite E. reflexivity.
      + intros k o1 Hk1. unfold at_times. cbn [combine filter fst].
        assert (Hlt : (m < length (sw_objs s))%nat) by (apply nth_error_Some; rewrite Eo; discriminate).
        destruct (Nat.eqb_spec m k) as [->|N].
        * rewrite Eo in Hk1. injection Hk1 as <-. cbn [map snd]. rewrite sights_cons. f_equal.
          apply Hat. cbn [s2 sw_objs]. apply nth_list_set_same, Hlt.
        * apply Hat. cbn [s2 sw_objs]. rewrite nth_list_set_other by exact N. exact Hk1.
      + intros Hpos Hp m'. specialize (Hns Hpos Hp m). destruct Hns as (Hns & _). specialize (Hns (or_introl eq_refl)).
        split.
        * intros Hsf. specialize (Hno m' Hsf Hpos Hp). subst m'. constructor; [reflexivity|exact Hns].
        * intros _. exists m. constructor; [reflexivity|exact Hns].
  Qed.
End gen.

(** ** Consequences for the hallway and the room *)
Lemma hallway_next d acts b : facing d (acts ++ [b]) = xorb (facing d acts) (negb b).
Proof.
  unfold facing. rewrite filter_app, app_length. destruct b; cbn [filter negb length].
  - rewrite Nat.add_0_r, xorb_false_r. reflexivity.
  - rewrite Nat.add_1_r, Nat.odd_succ, <- Nat.negb_odd. destruct d, (Nat.odd _); reflexivity.
Qed.

Lemma position_app d x xs ys : position d x (xs ++ ys) = position (facing d xs) (position d x xs) ys.
Proof.
  revert d x; induction xs as [|a xs IH]; intros d x.
  - cbn [app]. unfold facing at 1, position at 3. cbn. rewrite xorb_false_r. reflexivity.
  - cbn [app]. rewrite !position_cons, facing_cons. apply IH.
Qed.

Lemma position_forward d x k : position d x (repeat true k) = (if d then x + Z.of_nat k else x - Z.of_nat k).
Proof.
  revert x; induction k as [|k IH]; intros x; cbn [repeat].
  - unfold position. cbn. destruct d; lia.
  - rewrite position_cons, IH. destruct d; lia.
Qed.

Lemma facing_forward d k : facing d (repeat true k) = d.
Proof. induction k as [|k IH]; cbn [repeat]; [unfold facing; cbn; apply xorb_false_r|]. rewrite facing_cons. exact IH. Qed.

(** standing before the wall and looking at it, one can walk on, out of the room *)
Lemma room_walks_out p : sight (ORoom (new_room p)) [false] = true /\ sight (ORoom (new_room p)) [false; true] = false /\
  forall k, position true 0 (false :: repeat true k) = - Z.of_nat k.
Proof.
  split; [reflexivity|]. split; [reflexivity|]. intros k. rewrite position_cons, position_forward. cbn [negb]. lia.
Qed.

Lemma sights_forward_false p d x k : (forall j, (1 <= j <= k)%nat -> d = true \/ x <> Z.of_nat j) ->
  sights (ORoom (Room p d x)) (repeat true k) = repeat false k.
Proof.
  revert x; induction k as [|k IH]; intros x H; [reflexivity|]. cbn [repeat]. rewrite sights_cons. cbn [observe fst snd]. f_equal.
  - destruct (Z.eqb_spec (x + (if d then 1 else -1)) 0) as [E|E]; [|reflexivity].
    destruct (H 1%nat ltac:(lia)) as [->|N]; [reflexivity|]. destruct d; [reflexivity|]. lia.
  - apply IH. intros j Hj. destruct (H (S j) ltac:(lia)) as [->|N]; [left; reflexivity|].
    destruct d; [left; reflexivity|right]. lia.
Qed.

Definition detour (k : nat) : list bool := repeat true k ++ [false].

Lemma detour_end p k : fold_left (fun o a => fst (observe o a)) (detour k) (ORoom (new_room p)) = ORoom (Room p false (Z.of_nat k)).
Proof.
  unfold detour. rewrite fold_left_app. cbn [fold_left].
  assert (H : forall x, fold_left (fun o a => fst (observe o a)) (repeat true k) (ORoom (Room p true x)) = ORoom (Room p true (x + Z.of_nat k))).
  { induction k as [|k IH]; intros x; cbn [repeat fold_left].
    - rewrite Z.add_0_r. reflexivity.
    - cbn [observe fst]. rewrite IH. do 2 f_equal. lia. }
  unfold new_room. rewrite H. cbn [observe fst negb]. rewrite Z.add_0_l. reflexivity.
Qed.

(** What the room shows next is not decided by any number of recent pairs. *)
Lemma room_no_context p k : exists xs ys,
  let o := ORoom (new_room p) in
  skipn (length xs - k) (combine xs (sights o xs)) = skipn (length ys - k) (combine ys (sights o ys)) /\
  length (skipn (length xs - k) xs) = k /\
  sight o (xs ++ [true]) = true /\ sight o (ys ++ [true]) = false.
Proof.
  exists (detour (S k) ++ repeat true k), (detour (S (S k)) ++ repeat true k). cbn zeta.
  assert (H : forall j, (S k <= j)%nat -> skipn (length (detour j ++ repeat true k) - k)
    (combine (detour j ++ repeat true k) (sights (ORoom (new_room p)) (detour j ++ repeat true k))) =
    combine (repeat true k) (repeat false k)).
  { intros j Hj. rewrite sights_app, detour_end. rewrite sights_forward_false.
    2:{ intros i Hi. right. lia. }
    assert (Hl : length (sights (ORoom (new_room p)) (detour j)) = length (detour j)) by apply sights_length.
    revert Hl. generalize (sights (ORoom (new_room p)) (detour j)). generalize (detour j). intros l1 l2 Hl.
    rewrite app_length, repeat_length. replace (length l1 + k - k)%nat with (length l1) by lia.
    revert l2 Hl; induction l1 as [|x l1 IH]; intros [|y l2] Hl; cbn in Hl; try discriminate; [reflexivity|].
    cbn [app combine length skipn]. apply IH. lia. }
  split; [rewrite !H by lia; reflexivity|]. split.
  - rewrite skipn_length, app_length, repeat_length. lia.
  - assert (HS : forall j, sight (ORoom (new_room p)) ((detour j ++ repeat true k) ++ [true]) =
      (Z.of_nat j - Z.of_nat k - 1 =? 0)).
    { intros j. cbn [sight new_room rm_dir rm_dist]. rewrite <- app_assoc.
      replace (repeat true k ++ [true]) with (repeat true (S k)).
      2:{ clear. induction k as [|k IH]; [reflexivity|]. cbn [repeat app] in *. rewrite <- IH. reflexivity. }
      unfold detour. rewrite <- app_assoc. rewrite position_app, facing_forward, position_forward. cbn [app].
      rewrite position_cons, position_forward. cbn [negb].
      assert (HF : facing true (repeat true j ++ false :: repeat true (S k)) = false).
      { unfold facing. rewrite filter_app, app_length. cbn [filter negb length].
        assert (E : forall i, filter negb (repeat true i) = []) by (induction i; cbn; auto).
        rewrite !E. reflexivity. }
      rewrite HF. cbn [negb]. rewrite andb_true_r. f_equal. lia. }
    rewrite !HS. split; [apply Z.eqb_eq; lia|apply Z.eqb_neq; lia].
Qed.

(** ** Final forms *)
Lemma hallway_context p acts i a : (i < length acts)%nat -> nth_error acts i = Some a -> (0 < i)%nat ->
  nth_error (sights (OHallway (new_hallway p)) acts) i =
  option_map (fun before => xorb before (negb a)) (nth_error (sights (OHallway (new_hallway p)) acts) (i - 1)).
Proof.
  intros Hi Ha H0. unfold sights. rewrite !nth_error_map.
  assert (Hs : forall j, (j < length acts)%nat -> nth_error (seq 0 (length acts)) j = Some j).
  { intros j Hj. rewrite nth_error_nth' with (d := 0%nat) by (rewrite seq_length; exact Hj). rewrite seq_nth by exact Hj. reflexivity. }
  rewrite !Hs by lia. cbn [option_map sight new_hallway hw_dir].
  replace (S (i - 1)) with i by lia. f_equal.
  rewrite <- hallway_next. f_equal. destruct (nth_error_split acts i Ha) as (l1 & l2 & -> & <-).
  rewrite !firstn_app, Nat.sub_diag. replace (S (length l1) - length l1)%nat with 1%nat by lia.
  rewrite !firstn_all2 by lia. cbn [firstn]. rewrite app_nil_r, ?firstn_all. reflexivity.
Qed.

Section final.
  Context {G : Type} (random : G -> R * G) (choice : nat -> G -> nat * G).

  Lemma switcher_stream n p objs modes g :
    (forall n g, (0 < n)%nat -> (fst (choice n g) < n)%nat) ->
    modes <> [] -> Forall (fun m => (m < length objs)%nat) modes ->
    exists ks acts obs s' sf' g', length ks = n /\ length acts = n /\ length obs = n /\
      Forall (fun m => In m modes) ks /\
      sw_take random choice (2 * n) (Switcher p objs modes) SBegin g = Ok (interleave acts obs, s', sf', g') /\
      (forall m o, nth_error objs m = Some o -> at_times m ks obs = sights o (at_times m ks acts)).
  Proof.
    intros Hc Hne Hin.
    destruct (sw_stream random choice Hc n (Switcher p objs modes) SBegin g (conj Hne Hin) I)
      as (ks & acts & obs & s' & sf' & g' & L1 & L2 & L3 & Hk & E & _ & _ & Hat & _).
    exists ks, acts, obs, s', sf', g'. repeat (split; [assumption|]). exact Hat.
  Qed.

  Lemma at_times_const {A} m : forall (ks : list nat) (l : list A), Forall (eq m) ks -> length ks = length l -> at_times m ks l = l.
  Proof.
    induction ks as [|k ks IH]; intros [|x l] HF Hl; cbn in Hl; try discriminate; [reflexivity|].
    inversion HF as [|? ? <- HF']; subst. unfold at_times. cbn [combine filter fst]. rewrite Nat.eqb_refl. cbn [map snd].
    f_equal. apply IH; [exact HF'|lia].
  Qed.

  Lemma switcher_never n p objs modes g :
    (forall n g, (0 < n)%nat -> (fst (choice n g) < n)%nat) ->
    modes <> [] -> Forall (fun m => (m < length objs)%nat) modes ->
    (forall g, 0 <= fst (random g))%R -> (p <= 0)%R -> (0 < n)%nat ->
    exists m o acts s' sf' g', In m modes /\ nth_error objs m = Some o /\ length acts = n /\
      sw_take random choice (2 * n) (Switcher p objs modes) SBegin g = Ok (interleave acts (sights o acts), s', sf', g').
  Proof.
    intros Hc Hne Hin Hpos Hp Hn.
    destruct (sw_stream random choice Hc n (Switcher p objs modes) SBegin g (conj Hne Hin) I)
      as (ks & acts & obs & s' & sf' & g' & L1 & L2 & L3 & Hk & E & _ & _ & Hat & Hno).
    destruct (Hno Hpos Hp 0%nat) as (_ & Hm). destruct (Hm eq_refl) as (m & HF).
    assert (Hm' : In m modes).
    { destruct ks as [|k ks]; [cbn in L1; lia|]. inversion HF; subst. inversion Hk; subst. assumption. }
    assert (Hlt : (m < length objs)%nat) by (rewrite Forall_forall in Hin; apply Hin, Hm').
    destruct (nth_error objs m) as [o|] eqn:Eo; [|apply nth_error_None in Eo; lia].
    exists m, o, acts, s', sf', g'. split; [exact Hm'|]. split; [exact Eo|]. split; [exact L2|].
    rewrite E. do 4 f_equal. specialize (Hat m o Eo). rewrite !at_times_const in Hat by (auto; lia). rewrite Hat. reflexivity.
  Qed.
End final.
