(** Factored over models that learn. *)
From Coq Require Import Lra Lia.
From Verif Require Import Model.KT Model.CTW Model.PTW Model.FMN Model.Factored Spec.FactorsSpec Spec.PTWSpec Spec.FMNSpec.
From Verif Require Import Proofs.RealFacts Proofs.PyFacts Proofs.ProbFacts Proofs.KTFacts Proofs.KTRedundancy Proofs.SeqFacts.
From Verif Require Import Proofs.PTWFacts Proofs.PTWTop Proofs.PTWProps.
From Verif Require Import Proofs.CTWFacts Proofs.CTWMixture Proofs.CTWTop Proofs.CTWProps.
From Verif Require Import Proofs.SourceFacts Proofs.SourceProps Proofs.SourceCTW Proofs.CombinedFacts Proofs.CombinedTop.
From Verif Require Import Proofs.LearnEst Proofs.LearnTop.
Open Scope R_scope.
Notation of_turn n i evs := (filter (fun e => turn n e =? i)%nat evs).

(** Products over the turns. *)
Lemma Rprod_seq_update n (g h : nat -> R) i d : (i < n)%nat ->
  (forall j, j <> i -> h j = g j) -> h i = g i * d -> Rprod (map h (seq 0 n)) = Rprod (map g (seq 0 n)) * d.
Proof.
  intros Hi Hne He.
  assert (Hout : forall k a, (i < a)%nat \/ (a + k <= i)%nat -> Rprod (map h (seq a k)) = Rprod (map g (seq a k))).
  { induction k as [|k IH]; intros a Ha; cbn [seq map]; [reflexivity|]. rewrite !Rprod_cons, IH by lia. rewrite Hne by lia. reflexivity. }
  replace n with (i + (1 + (n - 1 - i)))%nat by lia. rewrite !seq_app, !map_app, !Rprod_app. cbn [seq map Nat.add].
  rewrite (Hout i 0%nat), (Hout (n - 1 - i)%nat (i + 1)%nat) by lia. rewrite !Rprod_cons, !Rprod_nil, He. ring.
Qed.

Lemma turn_lt n e : n <> 0%nat -> (turn n e < n)%nat.
Proof. intros H. apply Nat.mod_upper_bound. exact H. Qed.

Lemma in_turn_split n r evs : n <> 0%nat ->
  Rprod (map (in_turn n r) evs) = Rprod (map (fun i => Rprod (map (r i) (of_turn n i evs))) (seq 0 n)).
Proof.
  intros Hn. induction evs as [|e evs IH]; cbn [map].
  - symmetry. cbn [filter map]. rewrite Rprod_nil. induction (seq 0 n) as [|x l IHl]; cbn [map]; rewrite ?Rprod_cons, ?Rprod_nil; [reflexivity|].
    rewrite IHl. lra.
  - rewrite Rprod_cons, IH, Rmult_comm. symmetry. apply Rprod_seq_update with (i := turn n e); [apply turn_lt; exact Hn| |].
    + intros j Hj. cbn [filter]. destruct (Nat.eqb_spec (turn n e) j); [congruence|reflexivity].
    + cbn [filter]. rewrite Nat.eqb_refl. cbn [map]. rewrite Rprod_cons. unfold in_turn. ring.
Qed.

Lemma turns_split n q evs : n <> 0%nat -> forall before,
  Rprod (map (fun i => source_prob (q i) 0 (of_turn n i before)) (seq 0 n)) * turns n q before evs =
  Rprod (map (fun i => source_prob (q i) 0 (of_turn n i (before ++ evs))) (seq 0 n)).
Proof.
  intros Hn. induction evs as [|e evs IH]; intros before; cbn [turns]; [rewrite app_nil_r; lra|].
  replace (before ++ e :: evs) with ((before ++ [e]) ++ evs) by (rewrite <- app_assoc; reflexivity).
  rewrite <- IH, <- Rmult_assoc. f_equal. symmetry. apply Rprod_seq_update with (i := turn n e); [apply turn_lt; exact Hn| |].
  - intros j Hj. rewrite filter_app. cbn [filter]. destruct (Nat.eqb_spec (turn n e) j); [congruence|]. rewrite app_nil_r. reflexivity.
  - rewrite filter_app. cbn [filter]. rewrite Nat.eqb_refl, source_app. cbn [source_prob]. rewrite Nat.add_0_l. lra.
Qed.

Lemma turns_split0 n q evs : n <> 0%nat -> turns n q [] evs = Rprod (map (fun i => source_prob (q i) 0 (of_turn n i evs)) (seq 0 n)).
Proof.
  intros Hn. pose proof (turns_split n q evs Hn []) as H. cbn [filter source_prob app] in H. rewrite <- H.
  assert (E : Rprod (map (fun _ => 1) (seq 0 n)) = 1).
  { clear H. induction (seq 0 n) as [|x l IHl]; cbn [map]; rewrite ?Rprod_cons, ?Rprod_nil; [reflexivity|]. rewrite IHl. lra. }
  rewrite E. ring.
Qed.

Lemma Rprod_pos_each {X} (f : X -> R) l : (forall x, In x l -> 0 <= f x) -> 0 < Rprod (map f l) -> forall x, In x l -> 0 < f x.
Proof.
  induction l as [|y l IH]; intros H0 H x Hx; [destruct Hx|]. cbn [map] in H. rewrite Rprod_cons in H.
  assert (Hl : 0 <= Rprod (map f l)).
  { clear - H0. induction l as [|z l IH]; cbn [map]; rewrite ?Rprod_cons, ?Rprod_nil; [lra|].
    apply Rmult_le_pos; [apply H0; right; left; reflexivity|]. apply IH. intros w [<-|Hw]; apply H0; [left; reflexivity|right; right; exact Hw]. }
  pose proof (H0 y (or_introl eq_refl)) as Hy.
  assert (Hy' : 0 < f y) by (destruct (Rle_lt_or_eq_dec _ _ Hy) as [|E]; [assumption|rewrite <- E in H; lra]).
  destruct Hx as [<-|Hx]; [exact Hy'|]. apply IH; [intros z Hz; apply H0; right; exact Hz| |exact Hx].
  destruct (Rle_lt_or_eq_dec _ _ Hl) as [|E]; [assumption|]. rewrite <- E in H. lra.
Qed.

Lemma ln_Rprod {X} (f : X -> R) l : (forall x, In x l -> 0 < f x) -> ln (Rprod (map f l)) = Rsum (map (fun x => ln (f x)) l).
Proof.
  induction l as [|x l IH]; intros H; cbn [map]; rewrite ?Rprod_cons, ?Rprod_nil, ?Rsum_cons; [rewrite ln_1; reflexivity|].
  assert (Hl : 0 < Rprod (map f l)).
  { clear IH. assert (H' : forall y, In y l -> 0 < f y) by (intros y Hy; apply H; right; exact Hy). clear H.
    induction l as [|y l IH]; cbn [map]; rewrite ?Rprod_cons, ?Rprod_nil; [lra|].
    apply Rmult_lt_0_compat; [apply H'; left; reflexivity|]. apply IH. intros z Hz. apply H'. right. exact Hz. }
  rewrite ln_mult by (try exact Hl; apply H; left; reflexivity). rewrite IH; [reflexivity|]. intros y Hy. apply H. right. exact Hy.
Qed.

Lemma routed_units n i evs : Forall (fun e => ev_wt e = 1) evs -> routed n i evs = of_turn n i evs.
Proof.
  unfold routed. induction 1 as [|e evs He Hevs IH]; [reflexivity|]. cbn [filter]. unfold turn at 1.
  destruct (Nat.eqb _ i); [|exact IH]. cbn [map]. rewrite IH. f_equal. destruct e as [a h w]. cbn in He |- *. rewrite He. reflexivity.
Qed.

Section factored.
  Context {St : Type} (M : model St).

  (** Factored raises nothing if no factor raises on its own symbols. *)
  Lemma fac_runs evs : forall s, s <> [] ->
    (forall i m, nth_error s i = Some m -> exists x, run M m (routed (length s) i evs) = Ok x) ->
    exists s' l, run (Factored_model M) s evs = Ok (s', l).
  Proof.
    induction evs as [|e evs IH]; intros s Hne H; [exists s, 0; reflexivity|].
    destruct (fac_index_ok s (ev_hist e) Hne) as (_ & m & Hm). set (i := Nat.modulo (length (ev_hist e)) (length s)) in *.
    destruct (H i m Hm) as ([m2 l2] & Hr). unfold routed in Hr. cbn [filter] in Hr. fold i in Hr. rewrite Nat.eqb_refl in Hr.
    cbn [map run ev_sym ev_hist ev_wt] in Hr.
    destruct (m_update M m (ev_sym e) (ev_hist e) 1) as [[m' l1]|er] eqn:E; cbn [bind] in Hr; [|discriminate].
    cbn [run]. change (m_update (Factored_model M)) with (fac_update M). rewrite (fac_update_spec M s _ _ _ m Hm), E. fold i. cbn [bind].
    destruct (IH (list_set s i m')) as (s' & l & Hs).
    - destruct s; [congruence|]. destruct i; discriminate.
    - intros j mj Hj. rewrite list_set_length. destruct (Nat.eq_dec i j) as [<-|Hij].
      + rewrite nth_error_list_set_same in Hj by (apply nth_error_Some; rewrite Hm; discriminate). injection Hj as <-.
        unfold routed. destruct (run M m' _) as [x|er]; [exists x; reflexivity|discriminate].
      + rewrite nth_error_list_set_other in Hj by exact Hij. destruct (H j mj Hj) as (x & Hx). exists x.
        unfold routed in Hx |- *. cbn [filter] in Hx. fold i in Hx. destruct (Nat.eqb_spec i j); [contradiction|exact Hx].
    - rewrite Hs. cbn [bind]. eauto.
  Qed.

  (** Bounds on the losses of the factors add up. *)
  Lemma fac_bounds s evs (b : nat -> R) : s <> [] -> Forall (fun e => ev_wt e = 1) evs ->
    (forall i m, nth_error s i = Some m -> exists m' l, run M m (of_turn (length s) i evs) = Ok (m', l) /\ - l <= b i) ->
    exists s' l, run (Factored_model M) s evs = Ok (s', l) /\ - l <= Rsum (map b (seq 0 (length s))).
  Proof.
    intros Hne Hw H. destruct (fac_runs evs s Hne) as (s' & l & Hr).
    { intros i m Hm. rewrite (routed_units _ _ _ Hw). destruct (H i m Hm) as (m' & l & Hr & _). eauto. }
    exists s', l. split; [exact Hr|]. destruct (fac_run M evs s s' l Hr Hne) as (_ & ls & Hls & ->).
    replace (- Rsum (map ls (seq 0 (length s)))) with (Rsum (map (fun i => -1 * ls i) (seq 0 (length s)))) by (rewrite Rsum_scal_l; lra).
    apply Rsum_le. intros i Hi. apply in_seq in Hi.
    destruct (nth_error s i) as [m|] eqn:Em; [|apply nth_error_None in Em; lia].
    destruct (Hls i m Em) as (m' & _ & Hri). rewrite (routed_units _ _ _ Hw) in Hri.
    destruct (H i m Em) as (m2 & l2 & Hr2 & Hl2). rewrite Hr2 in Hri. injection Hri as _ <-. lra.
  Qed.

  Section learn.
    Variables (fs : list St) (src : nat -> (event -> R) -> Prop) (price : nat -> nat -> R) (ok : nat -> event -> Prop).
    Hypothesis Hne : fs <> [].
    Hypothesis Hrun : forall i f, nth_error fs i = Some f -> forall es, Forall (ok i) es -> exists x, run M f es = Ok x.
    Hypothesis Hlearn : forall i f, nth_error fs i = Some f -> learns M f (ok i) (src i) (price i).
    Hypothesis Hsrc0 : forall i r e, src i r -> 0 <= r e.
    Let n := length fs.

    Lemma n_ne : n <> 0%nat.
    Proof. unfold n. destruct fs; [congruence|discriminate]. Qed.

    Theorem fac_learns r evs : (forall i, (i < n)%nat -> src i (r i)) -> Forall (fun e => ok (turn n e) e /\ ev_wt e = 1) evs ->
      0 < Rprod (map (in_turn n r) evs) ->
      exists s l, run (Factored_model M) fs evs = Ok (s, l) /\
        - l <= - ln (Rprod (map (in_turn n r) evs)) + Rsum (map (fun i => price i (share n i evs)) (seq 0 n)).
    Proof.
      intros Hr Hev Hpos. rewrite (in_turn_split n r evs n_ne) in *.
      assert (Hw : Forall (fun e => ev_wt e = 1) evs) by (eapply Forall_impl; [|exact Hev]; intros e [_ H]; exact H).
      assert (Hi0 : forall i, In i (seq 0 n) -> 0 <= Rprod (map (r i) (of_turn n i evs))).
      { intros i Hi. apply in_seq in Hi. induction (of_turn n i evs) as [|e l IH]; cbn [map]; rewrite ?Rprod_cons, ?Rprod_nil; [lra|].
        apply Rmult_le_pos; [|exact IH]. apply (Hsrc0 i). apply Hr. lia. }
      pose proof (Rprod_pos_each _ _ Hi0 Hpos) as Hip.
      destruct (fac_bounds fs evs (fun i => - ln (Rprod (map (r i) (of_turn n i evs))) + price i (share n i evs)) Hne Hw) as (s & l & Hs & Hl).
      - intros i f Hf. assert (Hi : (i < n)%nat) by (apply nth_error_Some; rewrite Hf; discriminate).
        assert (Hoki : Forall (ok i) (of_turn n i evs)).
        { apply Forall_forall. intros e He. apply filter_In in He as [He Et]. apply Nat.eqb_eq in Et. subst i.
          rewrite Forall_forall in Hev. apply (Hev e He). }
        destruct (Hrun i f Hf _ Hoki) as ([m' l] & Hrn). exists m', l. split; [exact Hrn|].
        pose proof (Hlearn i f Hf (r i) _ (Hr i Hi) Hoki (Hip i ltac:(apply in_seq; lia))) as HL.
        rewrite (seq_prob_run _ _ _ _ _ Hrn), ln_exp in HL. exact HL.
      - exists s, l. split; [exact Hs|]. rewrite (ln_Rprod _ _ Hip). eapply Rle_trans; [exact Hl|]. fold n.
        rewrite Rsum_plus. replace (Rsum (map (fun i => - ln (Rprod (map (r i) (of_turn n i evs)))) (seq 0 n)))
          with (Rsum (map (fun i => -1 * ln (Rprod (map (r i) (of_turn n i evs)))) (seq 0 n))) by (apply Rsum_map_ext; intros; ring).
        rewrite Rsum_scal_l. lra.
    Qed.
  End learn.
End factored.

(** Every factor tracks its own source. *)
Section tracks.
  Context {St : Type} (M : model St) (A : list Z) (okh : list Z -> Prop) (okw : R -> Prop) (Inv : St -> Prop).
  Hypothesis HS : steps M A okh okw Inv.
  Variable fresh : St.
  Hypothesis Hfresh : Inv fresh.
  Context (src : (event -> R) -> Prop) (price : nat -> R) (ok : event -> Prop).
  Hypothesis Hok : forall e, ok e -> ok_event A okh okw e.
  Hypothesis Hlearn : learns M fresh ok src price.
  Hypothesis Hmono : forall a b, (a <= b)%nat -> price a <= price b.
  Hypothesis Hprice : forall n, 0 <= price n.
  Hypothesis Hsrc0 : forall r e, src r -> 0 <= r e.
  Variables (n m : nat) (q : nat -> nat -> event -> R) (cps : nat -> list nat).
  Hypothesis Hn : (0 < n)%nat.
  Hypothesis Hq : forall i t, src (q i t).
  Hypothesis Hch : forall i, changes_only (q i) (cps i).
  Hypothesis Hcps : forall i, Forall (fun c => c mod 2 ^ m = 0)%nat (cps i).
  Variable evs : list event.
  Hypothesis Hev : Forall (fun e => ok e /\ ev_wt e = 1) evs.
  Hypothesis Hpos : 0 < turns n q [] evs.

  Lemma evs_units : Forall (fun e => ev_wt e = 1) evs.
  Proof. eapply Forall_impl; [|exact Hev]. intros e [_ H]. exact H. Qed.
  Lemma turn_ok i : Forall ok (of_turn n i evs).
  Proof. apply Forall_forall. intros e He. apply filter_In in He as [He _]. rewrite Forall_forall in Hev. apply (Hev e He). Qed.
  Lemma q_nonneg i t e : 0 <= q i t e.
  Proof. apply Hsrc0, Hq. Qed.
  Lemma turn_pos i : (i < n)%nat -> 0 < source_prob (q i) 0 (of_turn n i evs).
  Proof.
    intros Hi. rewrite turns_split0 in Hpos by lia.
    apply (Rprod_pos_each (fun i => source_prob (q i) 0 (of_turn n i evs)) (seq 0 n)); [|exact Hpos|apply in_seq; lia].
    intros j _. apply source_nonneg, q_nonneg.
  Qed.

  Lemma copies_track {T} (M' : model T) (f : T) (b : nat -> R) :
    (forall i, (i < n)%nat -> exists s l, run M' f (of_turn n i evs) = Ok (s, l) /\ - l <= - ln (source_prob (q i) 0 (of_turn n i evs)) + b i) ->
    exists s l, run (Factored_model M') (repeat f n) evs = Ok (s, l) /\ - l <= - ln (turns n q [] evs) + Rsum (map b (seq 0 n)).
  Proof.
    intros H. destruct (fac_bounds M' (repeat f n) evs (fun i => - ln (source_prob (q i) 0 (of_turn n i evs)) + b i)) as (s & l & Hs & Hl).
    - destruct n; [lia|discriminate].
    - exact evs_units.
    - intros i x Hx. rewrite repeat_length. assert (Hi : (i < n)%nat) by (rewrite <- (repeat_length f n); apply nth_error_Some; rewrite Hx; discriminate).
      apply nth_error_In, repeat_spec in Hx. subst x. exact (H i Hi).
    - exists s, l. split; [exact Hs|]. rewrite repeat_length in Hl. rewrite (turns_split0 n q evs) by lia.
      rewrite (ln_Rprod (fun i => source_prob (q i) 0 (of_turn n i evs))) by (intros i Hi; apply in_seq in Hi; apply turn_pos; lia).
      eapply Rle_trans; [exact Hl|]. rewrite Rsum_plus.
      replace (Rsum (map (fun i => - ln (source_prob (q i) 0 (of_turn n i evs))) (seq 0 n)))
        with (Rsum (map (fun i => -1 * ln (source_prob (q i) 0 (of_turn n i evs))) (seq 0 n))) by (apply Rsum_map_ext; intros; ring).
      rewrite Rsum_scal_l. lra.
  Qed.

  Theorem fac_ptw_tracks : exists s l, run (Factored_model (PTW_model M m fresh)) (repeat (ptw_init m fresh) n) evs = Ok (s, l) /\
    - l <= - ln (turns n q [] evs) + Rsum (map (fun i => let N := share n i evs in let d := levels m N in let k := length (cps i) in
      INR (1 + k * d) * price N + INR (1 + 2 * k * d) * ln 2 + INR (pred d) * ln (3 / 2)) (seq 0 n)).
  Proof.
    apply copies_track. intros i Hi.
    destruct (ptw_tracks M A okh okw Inv HS fresh Hfresh src price ok Hok Hlearn Hmono Hprice (q i) (q_nonneg i) (Hq i) (cps i) (Hch i) m (Hcps i)
      (of_turn n i evs) (turn_ok i) (turn_pos i Hi)) as (s & l & Hr & Hl).
    exists s, l. split; [exact Hr|]. cbv zeta in Hl |- *. unfold share. lra.
  Qed.

  Theorem fac_fmn_tracks : exists s0 s l, fmn_init (LogStore_class _) m fresh = Ok s0 /\
    run (Factored_model (FMN_model M (LogStore_class _) m)) (repeat s0 n) evs = Ok (s, l) /\
    - l <= - ln (turns n q [] evs) + Rsum (map (fun i => let N := share n i evs in let d := levels m N in let k := length (cps i) in
      INR (1 + k * d) * (price N + ln (INR (Nat.log2 (1 + N / 2 ^ m) + 1))) + INR (1 + 2 * k * d) * ln 2 + INR (pred d) * ln (3 / 2)) (seq 0 n)).
  Proof.
    assert (HF : forall i, (i < n)%nat -> _) by
      (intros i Hi; exact (fmn_tracks M A okh okw Inv HS fresh Hfresh src price ok Hok Hlearn Hmono Hprice (q i) (q_nonneg i) (Hq i) (cps i) (Hch i) m (Hcps i)
      (of_turn n i evs) (turn_ok i) (turn_pos i Hi))).
    destruct (HF 0%nat Hn) as (s0 & _ & _ & Hs0 & _). exists s0.
    destruct (copies_track (FMN_model M (LogStore_class _) m) s0 (fun i => let N := share n i evs in let d := levels m N in let k := length (cps i) in
      INR (1 + k * d) * (price N + ln (INR (Nat.log2 (1 + N / 2 ^ m) + 1))) + INR (1 + 2 * k * d) * ln 2 + INR (pred d) * ln (3 / 2))) as (s & l & Hr & Hl).
    - intros i Hi. destruct (HF i Hi) as (s1 & s & l & Hs1 & Hr & Hl). rewrite Hs0 in Hs1. injection Hs1 as <-.
      exists s, l. split; [exact Hr|]. cbv zeta in Hl |- *. unfold share. lra.
    - exists s, l. split; [exact Hs0|]. split; [exact Hr|exact Hl].
  Qed.
End tracks.

(** Factored([CTW(d, KT) for d in depths]), KT over any alphabet. *)
Section kt.
  Variable A : list Z.
  Hypothesis HA : NoDup A.
  Let k := length A.
  Hypothesis Hk : (2 <= k)%nat.
  Variables (binary : bool) (K : list Z).
  Hypothesis HK : NoDup K.
  Hypothesis H0 : In 0%Z K.
  Hypothesis HB : binary = true -> incl K [0; 1]%Z.

  Theorem fac_ctw_kt depths (L C : nat -> nat) r evs : depths <> [] -> Forall (fun d => 0 < d)%nat depths -> let n := length depths in
    (forall i, (i < n)%nat -> tree_of (memoryless A) K (nth i depths 0%nat) (L i) (C i) (r i)) ->
    Forall (fun e => symbol_of A e /\ incl (ev_hist e) K) evs -> 0 < Rprod (map (in_turn n r) evs) ->
    exists s l, run (Factored_model (CTW_model KT_model (kt_init A) binary)) (map (fun d => ctw_init (kt_init A) (Z.of_nat d)) depths) evs = Ok (s, l) /\
      - l <= - ln (Rprod (map (in_turn n r) evs))
             + Rsum (map (fun i => INR (L i) * learn_any (length A) (share n i evs) + INR (C i) * ln 2) (seq 0 n)).
  Proof.
    intros Hne Hd n Hr Hev Hpos. set (fs := map (fun d => ctw_init (kt_init A) (Z.of_nat d)) depths).
    assert (Hn : length fs = n) by apply map_length.
    assert (Hnth : forall i f, nth_error fs i = Some f -> (0 < nth i depths 0)%nat /\ f = ctw_init (kt_init A) (Z.of_nat (nth i depths 0%nat))).
    { intros i f Hf. unfold fs in Hf. rewrite nth_error_map in Hf. destruct (nth_error depths i) as [d|] eqn:E; [|discriminate].
      injection Hf as <-. rewrite (nth_error_nth _ _ 0%nat E). split; [|reflexivity]. rewrite Forall_forall in Hd. apply Hd. exact (nth_error_In _ _ E). }
    rewrite <- Hn in *.
    apply (fac_learns (CTW_model KT_model (kt_init A) binary) fs (fun i => tree_of (memoryless A) K (nth i depths 0%nat) (L i) (C i))
      (fun i N => INR (L i) * learn_any (length A) N + INR (C i) * ln 2) (fun _ e => symbol_of A e /\ incl (ev_hist e) K)).
    - unfold fs. destruct depths; [congruence|discriminate].
    - intros i f Hf es Hes. destruct (Hnth i f Hf) as [Hp ->].
      pose proof (ctw_steps KT_model (kt_init A) binary A any_hist nonneg (kt_inv A) K (nth i depths 0%nat) (law_step _ _ _ _ _ (kt_lawful A))
        (kt_inv_init A HA (A_ne A Hk)) HK H0 HB Hp) as HS.
      destruct (steps_run _ _ _ _ _ HS _ es (ctw_inv_init _ _ _ _ _ _ _)) as (s & l & Hrun & _); [|exists (s, l); exact Hrun].
      eapply Forall_impl; [|exact Hes]. intros e [[G1 G2] G3]. split; [exact G1|]. split; [split; [exact I|exact G3]|]. rewrite G2. unfold nonneg. lra.
    - intros i f Hf. destruct (Hnth i f Hf) as [Hp ->]. exact (ctw_of_kt A HA Hk binary K (nth i depths 0%nat) HK H0 HB Hp (L i) (C i)).
    - intros i x e (p & tr & _ & _ & _ & Hp & E). rewrite E. exact (memoryless_nonneg A _ e (Hp _)).
    - exact Hr.
    - eapply Forall_impl; [|exact Hev]. intros e [[G1 G2] G3]. split; [split; [split; [exact G1|exact G2]|exact G3]|exact G2].
    - exact Hpos.
  Qed.

  (** Factored([FMN(lambda: CTW(D, KT)) for i in range(n)]) *)
  Theorem fac_fmn_ctw_kt D n m L C q cps evs : (0 < D)%nat -> (0 < n)%nat -> (forall i t, tree_of (memoryless A) K D L C (q i t)) ->
    (forall i, changes_only (q i) (cps i)) -> (forall i, Forall (fun c => c mod 2 ^ m = 0)%nat (cps i)) ->
    Forall (fun e => symbol_of A e /\ incl (ev_hist e) K) evs -> 0 < turns n q [] evs ->
    exists s0 s l, fmn_init (LogStore_class _) m (ctw_init (kt_init A) (Z.of_nat D)) = Ok s0 /\
      run (Factored_model (FMN_model (CTW_model KT_model (kt_init A) binary) (LogStore_class _) m)) (repeat s0 n) evs = Ok (s, l) /\
      - l <= - ln (turns n q [] evs) + Rsum (map (fun i => let N := share n i evs in let d := levels m N in let c := length (cps i) in
        INR (1 + c * d) * (INR L * learn_any (length A) N + INR C * ln 2 + ln (INR (Nat.log2 (1 + N / 2 ^ m) + 1)))
        + INR (1 + 2 * c * d) * ln 2 + INR (pred d) * ln (3 / 2)) (seq 0 n)).
  Proof.
    intros HD Hn Hq Hch Hcps Hev Hpos.
    apply (fac_fmn_tracks (CTW_model KT_model (kt_init A) binary) A (okhK any_hist K) nonneg _
      (ctw_steps KT_model (kt_init A) binary A any_hist nonneg (kt_inv A) K D (law_step _ _ _ _ _ (kt_lawful A)) (kt_inv_init A HA (A_ne A Hk)) HK H0 HB HD)
      (ctw_init (kt_init A) (Z.of_nat D)) (ctw_inv_init _ _ _ _ _ _ _) (tree_of (memoryless A) K D L C)
      (fun N => INR L * learn_any (length A) N + INR C * ln 2) (fun e => symbol_of A e /\ incl (ev_hist e) K)); try assumption.
    - intros e [[G1 G2] G3]. split; [exact G1|]. split; [split; [exact I|exact G3]|]. rewrite G2. unfold nonneg. lra.
    - exact (ctw_of_kt A HA Hk binary K D HK H0 HB HD L C).
    - intros a b Hab. pose proof (Rmult_le_compat_l _ _ _ (pos_INR L) (learn_any_mono A Hk a b Hab)). unfold k in *. lra.
    - intros N. pose proof (Rmult_le_pos _ _ (pos_INR L) (learn_any_nonneg A Hk N)). pose proof (Rmult_le_pos _ _ (pos_INR C) (Rlt_le _ _ ln2_pos)). unfold k in *. lra.
    - intros x e (p & tr & _ & _ & _ & Hp & E). rewrite E. exact (memoryless_nonneg A _ e (Hp _)).
    - eapply Forall_impl; [|exact Hev]. intros e [[G1 G2] G3]. split; [split; [split; [exact G1|exact G2]|exact G3]|exact G2].
  Qed.
End kt.
