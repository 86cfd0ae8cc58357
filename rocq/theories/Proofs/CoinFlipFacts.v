(** Facts about CoinFlip. *)
From Coq Require Import Lra.
From Verif Require Import Spec.CoinFlip.
Open Scope Z_scope.

Lemma part_gt : forall cps l c, In c (increasing_part l cps) -> l < c.
Proof.
  induction cps as [|c0 cps IH]; intros l c; cbn; [intros []|].
  destruct (Z.ltb_spec l c0); [|intros []]. intros [->|H']; [assumption|]. specialize (IH _ _ H'). lia.
Qed.

Section coin.
  Context {Seed G : Type} (seeded : Seed -> G) (random : G -> R * G).
  Variable c : Coin Seed.
  Notation probs := (cf_probabilities c).
  Notation cps := (schedule c).
  Hypothesis Hp : probs <> [].

  Definition cont (n : Z) (suf : list Z) : list (Z * Z) :=
    match suf with
    | [] => []
    | _ :: suf' => enumerate (n + 1) suf' ++ [(n + Z.of_nat (length suf), -1)]
    end.

  Lemma iter_spec : iter_changes c = (0, hd (-1) cps) :: cont 0 cps.
  Proof.
    unfold iter_changes, schedule. destruct (cf_changepoints c) as [[|c0 l]|]; reflexivity.
  Qed.

  Record Inv (t : Z) (f : Flip) (pre suf : list Z) (last : Z) : Prop := {
    inv_t : fl_timestep f = t;
    inv_split : cps = pre ++ suf;
    inv_num : fl_num_changes f = Z.of_nat (length pre);
    inv_next : fl_next_change f = hd (-1) suf;
    inv_cont : fl_context f = Some (cont (Z.of_nat (length pre)) suf);
    inv_prob : fl_prob f = Some (nth (length pre mod length probs) probs 0%R);
    inv_part : increasing_part (-1) cps = pre ++ increasing_part last suf;
    inv_pre : Forall (fun x => x <= t) pre;
    inv_last : -1 <= last <= t;
    inv_later : forall x, In x (increasing_part last suf) -> t < x;
  }.

  Lemma len_pos : (0 < length probs)%nat.
  Proof. destruct probs; [contradiction|cbn; lia]. Qed.
  Lemma pick n : nth_error probs (Z.to_nat (Z.of_nat n mod Z.of_nat (length probs))) =
    Some (nth (n mod length probs) probs 0%R).
  Proof.
    pose proof len_pos. rewrite <- Nat2Z.inj_mod, Nat2Z.id.
    apply nth_error_nth'. apply Nat.mod_upper_bound. lia.
  Qed.

  Lemma enter_inv : exists f, enter seeded c = Ok (f, seeded (cf_seed c)) /\ Inv (-1) f [] cps (-1).
  Proof.
    pose proof len_pos. unfold enter, update_probability, reset. cbn [fl_timestep fl_next_change fl_context].
    change (-1 <? 0) with true. cbv iota. cbn [fl_timestep fl_next_change fl_context].
    change (-1 =? -1) with true. cbv iota. rewrite iter_spec.
    destruct (Z.eqb_spec (Z.of_nat (length probs)) 0); [lia|].
    pose proof (pick 0) as E. cbn [Z.of_nat] in E. rewrite E. cbn [bind].
    eexists. split; [reflexivity|]. constructor; cbn [fl_timestep fl_num_changes fl_next_change fl_context fl_prob];
      try reflexivity; try lia; [constructor|].
    intros x Hx. now apply part_gt in Hx.
  Qed.

  Lemma step_inv t f pre suf last : -1 <= t -> Inv t f pre suf last ->
    exists f', update_probability c
      {| fl_timestep := fl_timestep f + 1; fl_num_changes := fl_num_changes f;
         fl_next_change := fl_next_change f; fl_context := fl_context f; fl_prob := fl_prob f |} = Ok f' /\
      exists pre' suf' last', Inv (t + 1) f' pre' suf' last'.
  Proof.
    intros Ht [It Is In_ Ix Ic Ip Ie If Il Ig]. unfold update_probability.
    cbn [fl_timestep fl_next_change fl_context]. rewrite It.
    destruct (Z.ltb_spec (t + 1) 0); [lia|]. cbn [fl_timestep fl_next_change fl_context].
    rewrite Ix. destruct (Z.eqb_spec (t + 1) (hd (-1) suf)) as [E|E].
    - destruct suf as [|c0 suf]; [cbn [hd] in E; lia|]. cbn [hd] in E. subst c0. rewrite Ic.
      assert (Ec : cont (Z.of_nat (length pre)) (t + 1 :: suf) =
        (Z.of_nat (length (pre ++ [t + 1])), hd (-1) suf) :: cont (Z.of_nat (length (pre ++ [t + 1]))) suf).
      { rewrite app_length. cbn [length cont].
        replace (Z.of_nat (length pre + 1)) with (Z.of_nat (length pre) + 1) by lia.
        destruct suf as [|c1 suf]; cbn [enumerate app hd length cont]; [reflexivity|].
        replace (Z.of_nat (length pre) + Z.of_nat (S (S (length suf)))) with (Z.of_nat (length pre) + 1 + Z.of_nat (S (length suf))) by lia. reflexivity. }
      rewrite Ec. pose proof len_pos. destruct (Z.eqb_spec (Z.of_nat (length probs)) 0); [lia|].
      rewrite pick. eexists. split; [reflexivity|].
      cbn [increasing_part] in Ie, Ig. destruct (Z.ltb_spec last (t + 1)); [|lia].
      exists (pre ++ [t + 1]), suf, (t + 1). constructor;
        cbn [fl_timestep fl_num_changes fl_next_change fl_context fl_prob]; try reflexivity.
      + rewrite Is. now rewrite <- app_assoc.
      + rewrite Ie. now rewrite <- app_assoc.
      + apply Forall_app. split; [eapply Forall_impl; [|exact If]; cbv beta; intros; lia|]. repeat constructor. lia.
      + lia.
      + intros x Hx. now apply part_gt in Hx.
    - eexists. split; [reflexivity|]. exists pre, suf, last. constructor;
        cbn [fl_timestep fl_num_changes fl_next_change fl_context fl_prob]; try assumption; try reflexivity.
      + eapply Forall_impl; [|exact If]. cbv beta. intros; lia.
      + lia.
      + intros x Hx. destruct suf as [|c0 suf]; [destruct Hx|]. cbn [hd] in E. cbn [increasing_part] in Hx, Ig.
        destruct (Z.ltb_spec last c0); [|destruct Hx].
        assert (t < c0) by (apply Ig; now left). destruct Hx as [<-|Hx]; [lia|].
        apply part_gt in Hx. lia.
  Qed.

  Lemma inv_count t f pre suf last : Inv t f pre suf last ->
    fl_prob f = Some (in_force probs (increasing_part (-1) cps) t) /\
    fl_num_changes f = Z.of_nat (changes (increasing_part (-1) cps) t).
  Proof.
    intros [It Is In_ Ix Ic Ip Ie If Il Ig]. unfold in_force.
    assert (E : changes (increasing_part (-1) cps) t = length pre).
    { unfold changes. rewrite Ie, filter_app, app_length.
      assert (E1 : forall l, Forall (fun x => x <= t) l -> length (filter (fun x => x <=? t) l) = length l).
      { induction 1 as [|x l Hx _ IH]; [reflexivity|]. cbn. apply Z.leb_le in Hx. rewrite Hx. cbn. now rewrite IH. }
      assert (E2 : forall l, (forall x, In x l -> t < x) -> filter (fun x => x <=? t) l = []).
      { induction l as [|x l IH]; intros H; [reflexivity|]. cbn.
        destruct (Z.leb_spec x t); [specialize (H x (or_introl eq_refl)); lia|]. apply IH. intros; apply H. now right. }
      rewrite E1, E2 by assumption. cbn. lia. }
    rewrite E. split; assumption.
  Qed.

  (** a call of an object that is running, and of one that is not *)
  Lemma call_running t f pre suf last g : 0 <= t -> Inv t f pre suf last ->
    exists v f', call seeded random c f g = Ok (v, f', snd (random g)) /\
      (exists pre' suf' last', Inv (t + 1) f' pre' suf' last') /\
      v = if Rle_dec (in_force probs (increasing_part (-1) cps) (t + 1)) (fst (random g)) then 1 else 0.
  Proof.
    intros Ht HI. unfold call. rewrite (inv_t _ _ _ _ _ HI). destruct (Z.ltb_spec t 0); [lia|]. cbn [bind].
    destruct (step_inv t f pre suf last) as (f' & E & pre' & suf' & last' & HI'); [lia|exact HI|].
    rewrite (inv_t _ _ _ _ _ HI) in E. rewrite (inv_t _ _ _ _ _ HI), E. cbn [bind]. destruct (random g) as [u g'].
    destruct (inv_count _ _ _ _ _ HI') as [-> _]. cbn [parse_prob bind fst snd].
    eexists _, _. split; [reflexivity|]. split; [eauto|]. reflexivity.
  Qed.
  Lemma call_fresh f g : fl_timestep f < 0 ->
    exists v f', call seeded random c f g = Ok (v, f', snd (random (seeded (cf_seed c)))) /\
      (exists pre' suf' last', Inv 0 f' pre' suf' last') /\
      v = if Rle_dec (in_force probs (increasing_part (-1) cps) 0) (fst (random (seeded (cf_seed c)))) then 1 else 0.
  Proof.
    intros Ht. unfold call. destruct (Z.ltb_spec (fl_timestep f) 0); [|lia].
    destruct enter_inv as (f0 & E0 & HI). rewrite E0. cbn [bind].
    destruct (step_inv (-1) f0 [] cps (-1)) as (f' & E & pre' & suf' & last' & HI'); [lia|exact HI|].
    rewrite E. cbn [bind]. destruct (random (seeded (cf_seed c))) as [u g'].
    destruct (inv_count _ _ _ _ _ HI') as [-> _]. cbn [parse_prob bind fst snd].
    eexists _, _. split; [reflexivity|]. split; [eauto|]. reflexivity.
  Qed.

  Lemma calls_running : forall n t f pre suf last g, 0 <= t -> Inv t f pre suf last ->
    exists vs f' g', calls seeded random c n f g = Ok (vs, f', g') /\ length vs = n /\
      fl_timestep f' = t + Z.of_nat n /\
      forall i, (i < n)%nat -> nth i vs 0 =
        if Rle_dec (in_force probs (increasing_part (-1) cps) (t + 1 + Z.of_nat i)) (draw random i g) then 1 else 0.
  Proof.
    induction n as [|n IH]; intros t f pre suf last g Ht HI.
    - exists [], f, g. cbn. repeat split; [rewrite (inv_t _ _ _ _ _ HI); lia|]. intros i Hi. lia.
    - destruct (call_running t f pre suf last g Ht HI) as (v & f1 & E & (pre1 & suf1 & last1 & HI1) & Ev).
      destruct (IH (t + 1) f1 pre1 suf1 last1 (snd (random g))) as (vs & f' & g' & E' & L & T & N); [lia|exact HI1|].
      exists (v :: vs), f', g'. cbn [calls]. rewrite E. cbn [bind]. rewrite E'. cbn [bind].
      split; [reflexivity|]. split; [cbn; now rewrite L|]. split; [lia|].
      intros [|i] Hi; cbn [nth draw].
      + rewrite Ev. replace (t + 1 + Z.of_nat 0) with (t + 1) by lia. reflexivity.
      + rewrite N by lia. replace (t + 1 + 1 + Z.of_nat i) with (t + 1 + Z.of_nat (S i)) by lia. reflexivity.
  Qed.

  Lemma calls_fresh n f g : fl_timestep f < 0 ->
    exists vs f' g', calls seeded random c n f g = Ok (vs, f', g') /\ length vs = n /\
      (n <> O -> fl_timestep f' = Z.of_nat n - 1) /\
      forall i, (i < n)%nat -> nth i vs 0 =
        if Rle_dec (in_force probs (increasing_part (-1) cps) (Z.of_nat i)) (draw random i (seeded (cf_seed c))) then 1 else 0.
  Proof.
    intros Ht. destruct n as [|n].
    - exists [], f, g. cbn. repeat split; [contradiction|]. intros i Hi. lia.
    - destruct (call_fresh f g Ht) as (v & f1 & E & (pre1 & suf1 & last1 & HI1) & Ev).
      destruct (calls_running n 0 f1 pre1 suf1 last1 (snd (random (seeded (cf_seed c))))) as (vs & f' & g' & E' & L & T & N); [lia|exact HI1|].
      exists (v :: vs), f', g'. cbn [calls]. rewrite E. cbn [bind]. rewrite E'. cbn [bind].
      split; [reflexivity|]. split; [cbn; now rewrite L|]. split; [intros _; lia|].
      intros [|i] Hi; cbn [nth draw].
      + exact Ev.
      + rewrite N by lia. replace (0 + 1 + Z.of_nat i) with (Z.of_nat (S i)) by lia. reflexivity.
  Qed.

  Lemma data_spec terminal : exists vs f g, get_data seeded random c terminal = Ok (vs, f, g) /\
    length vs = Z.to_nat terminal /\
    forall i, (i < length vs)%nat -> nth i vs 0 =
      if Rle_dec (in_force probs (increasing_part (-1) cps) (Z.of_nat i)) (draw random i (seeded (cf_seed c))) then 1 else 0.
  Proof.
    unfold get_data. destruct enter_inv as (f0 & E0 & HI). rewrite E0. cbn [bind].
    destruct (calls_fresh (Z.to_nat terminal) f0 (seeded (cf_seed c))) as (vs & f' & g' & E & L & _ & N).
    { rewrite (inv_t _ _ _ _ _ HI). lia. }
    rewrite E. cbn [bind]. eexists _, _, _. split; [reflexivity|]. split; [exact L|]. intros i Hi. apply N. lia.
  Qed.

  (** after get_data the object cannot be called *)
  Lemma call_after terminal vs f g g' : 0 < terminal ->
    get_data seeded random c terminal = Ok (vs, f, g) ->
    exists e, call seeded random c f g' = Err e.
  Proof.
    intros Ht. unfold get_data. destruct enter_inv as (f0 & E0 & HI). rewrite E0. cbn [bind].
    destruct (calls_fresh (Z.to_nat terminal) f0 (seeded (cf_seed c))) as (vs' & f' & g0 & E & L & T & _).
    { rewrite (inv_t _ _ _ _ _ HI). lia. }
    rewrite E. cbn [bind]. intros H. injection H as <- <- <-.
    specialize (T ltac:(lia)).
    unfold call, exit_. cbn [fl_timestep]. destruct (Z.ltb_spec (fl_timestep f') 0); [lia|].
    cbn [bind fl_timestep fl_num_changes fl_next_change fl_context fl_prob].
    unfold update_probability. cbn [fl_timestep fl_num_changes fl_next_change fl_context fl_prob].
    destruct (Z.ltb_spec (fl_timestep f' + 1) 0); [lia|]. cbn [fl_timestep fl_num_changes fl_next_change fl_context fl_prob].
    destruct (fl_timestep f' + 1 =? fl_next_change f'); [eexists; reflexivity|]. cbn [bind].
    destruct (random g'). cbn [fl_prob parse_prob bind]. eexists; reflexivity.
  Qed.
End coin.

Lemma part_all : forall cps l, (forall i, (S i < length cps)%nat -> nth i cps 0 < nth (S i) cps 0) ->
  l < hd (l + 1) cps -> increasing_part l cps = cps.
Proof.
  induction cps as [|c cps IH]; intros l H Hl; [reflexivity|]. cbn [hd] in Hl. cbn [increasing_part].
  destruct (Z.ltb_spec l c); [|lia]. f_equal. apply IH.
  - intros i Hi. apply (H (S i)). cbn; lia.
  - destruct cps as [|c' cps]; [cbn; lia|]. cbn [hd]. apply (H O). cbn; lia.
Qed.

Lemma schedule_followed {Seed G} (seeded : Seed -> G) (random : G -> R * G) (c : Coin Seed) terminal :
  cf_probabilities c <> [] ->
  (forall x, In x (schedule c) -> 0 <= x) ->
  (forall i, (S i < length (schedule c))%nat -> nth i (schedule c) 0 < nth (S i) (schedule c) 0) ->
  exists vs f g, get_data seeded random c terminal = Ok (vs, f, g) /\
    length vs = Z.to_nat terminal /\
    forall i, (i < length vs)%nat -> nth i vs 0 =
      if Rle_dec (in_force (cf_probabilities c) (schedule c) (Z.of_nat i)) (draw random i (seeded (cf_seed c))) then 1 else 0.
Proof.
  intros Hp H0 Hs. destruct (data_spec seeded random c Hp terminal) as (vs & f & g & E & L & N).
  exists vs, f, g. split; [exact E|]. split; [exact L|]. rewrite (part_all (schedule c)) in N; [exact N|exact Hs|].
  destruct (schedule c) as [|x l]; [cbn; lia|]. cbn [hd]. specialize (H0 x (or_introl eq_refl)). lia.
Qed.

(** schedules that are not increasing are not followed *)
Lemma unordered_stuck {Seed G} (seeded : Seed -> G) (random : G -> R * G) (s : Seed) :
  (forall g, 0 <= fst (random g) < 1)%R ->
  exists c : Coin Seed, cf_seed c = s /\ schedule c = [2; 1] /\
    in_force (cf_probabilities c) (schedule c) 2 = 1%R /\
    exists vs f g, get_data seeded random c 3 = Ok (vs, f, g) /\ nth 2 vs 0 = 1.
Proof.
  intros Hr.
  set (c := {| cf_probabilities := [0%R; 0%R; 1%R]; cf_seed := s; cf_changepoints := Some [2; 1] |} : Coin Seed).
  exists c. split; [reflexivity|]. split; [reflexivity|]. split; [reflexivity|].
  destruct (data_spec seeded random c ltac:(discriminate) 3) as (vs & f & g & E & L & N).
  exists vs, f, g. split; [exact E|]. rewrite N by (rewrite L; cbn; lia).
  assert (Hd : forall i g, (0 <= draw random i g < 1)%R).
  { clear -Hr. induction i as [|i IH]; intros g; cbn; [apply Hr|apply IH]. }
  specialize (Hd 2%nat (seeded (cf_seed c))).
  replace (in_force (cf_probabilities c) (increasing_part (-1) (schedule c)) (Z.of_nat 2)) with 0%R by reflexivity.
  destruct (Rle_dec 0 _); [reflexivity|lra].
Qed.

Lemma bias_reversed {Seed G} (seeded : Seed -> G) (random : G -> R * G) (s : Seed) terminal vs f g :
  (forall g, 0 <= fst (random g) < 1)%R ->
  get_data seeded random {| cf_probabilities := [1%R]; cf_seed := s; cf_changepoints := None |} terminal = Ok (vs, f, g) ->
  Forall (fun v => v = 0) vs.
Proof.
  intros Hr E.
  destruct (data_spec seeded random {| cf_probabilities := [1%R]; cf_seed := s; cf_changepoints := None |}
    ltac:(discriminate) terminal) as (vs' & f' & g' & E' & L & N).
  rewrite E in E'. injection E' as -> -> ->. apply Forall_forall. intros v Hv.
  apply (In_nth _ _ 0) in Hv as (i & Hi & <-). rewrite N by exact Hi.
  unfold in_force, changes, schedule. cbn [cf_changepoints cf_probabilities increasing_part filter length].
  cbn -[Rle_dec draw]. 
  destruct (Rle_dec 1 (draw random i (seeded s))) as [Hle|]; [|reflexivity].
  exfalso. assert (Hd : forall i g, (0 <= draw random i g < 1)%R).
  { clear -Hr. induction i as [|i IH]; intros g; cbn; [apply Hr|apply IH]. }
  specialize (Hd i (seeded s)). lra.
Qed.
