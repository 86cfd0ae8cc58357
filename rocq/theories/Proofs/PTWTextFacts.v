(** The texts of a PTW name its blocks and models. *)
From Coq Require Import Lra Permutation.
From Verif Require Import Proofs.RealFacts Proofs.PyFacts Proofs.ProbFacts Proofs.PTWFacts Proofs.HelpersFacts Proofs.LearnersPTWFacts Proofs.LearnersKTFacts.
From Verif Require Import Model.KT Proofs.ParamsFacts Proofs.KTFacts Spec.PTWTextSpec.
Open Scope Z_scope.

(** ** Bits and blocks *)
Fixpoint lev (d : nat) (n : Z) : list nat :=
  match d with O => [] | S i => if Z.testbit n (Z.of_nat i) then i :: lev i n else lev i n end.
Lemma lev_below d n i : In i (lev d n) -> (i < d)%nat.
Proof. induction d as [|d IH]; cbn [lev]; [intros []|]. destruct (Z.testbit n (Z.of_nat d)); [intros [<-|H]; [lia|]|intros H]; specialize (IH H); lia. Qed.
Lemma lev_sorted d n : StronglySorted (fun a b => (b < a)%nat) (lev d n).
Proof.
  induction d as [|d IH]; cbn [lev]; [constructor|]. destruct (Z.testbit n (Z.of_nat d)); [|exact IH]. constructor; [exact IH|].
  apply Forall_forall. intros i. apply lev_below.
Qed.
Lemma lev_size d n : 0 <= n -> size (lev d n) = n - bb n (Z.of_nat d).
Proof.
  intros Hn. induction d as [|d IH]; [cbn [lev size fold_right]; rewrite bb_0; lia|]. cbn [lev].
  replace (Z.of_nat (S d)) with (Z.of_nat d + 1) by lia. rewrite bb_S by lia. destruct (Z.testbit n (Z.of_nat d)); [|exact IH].
  unfold size in *. cbn [fold_right]. rewrite IH. lia.
Qed.
Lemma lev_blocks D n : 0 <= n <= 2 ^ Z.of_nat D -> blocks (lev (S D) n) n.
Proof.
  intros Hn. split; [apply lev_sorted|]. rewrite lev_size by lia. rewrite bb_small; [lia| |lia].
  split; [lia|]. rewrite Nat2Z.inj_succ, Z.pow_succ_r by lia. assert (0 < 2 ^ Z.of_nat D) by (apply Z.pow_pos_nonneg; lia). lia.
Qed.
Lemma lev_starts d n : 0 <= n -> forall k, In k (starts (bb n (Z.of_nat d)) (lev d n)) <-> k <> n /\ exists i, (1 <= i <= d)%nat /\ k = bb n (Z.of_nat i).
Proof.
  intros Hn. induction d as [|d IH]; intros k; cbn [lev starts].
  - split; [intros []|intros (_ & i & H & _); lia].
  - replace (Z.of_nat (S d)) with (Z.of_nat d + 1) in * by lia. pose proof (bb_S n (Z.of_nat d) Hn ltac:(lia)) as E.
    destruct (Z.testbit n (Z.of_nat d)) eqn:B.
    + cbn [starts]. replace (bb n (Z.of_nat d + 1) + 2 ^ Z.of_nat d) with (bb n (Z.of_nat d)) by lia. cbn [In]. rewrite IH.
      pose proof (bit_lower n (Z.of_nat d) Hn ltac:(lia) B). assert (0 < 2 ^ Z.of_nat d) by (apply Z.pow_pos_nonneg; lia). split.
      * intros [<-|(H1 & i & H2 & ->)]; [split; [lia|exists (S d); split; [lia|f_equal; lia]]|]. split; [exact H1|exists i; split; [lia|reflexivity]].
      * intros (H1 & i & H2 & ->). destruct (Nat.eq_dec i (S d)) as [->|N]; [left; f_equal; lia|right]. split; [exact H1|exists i; split; [lia|reflexivity]].
    + rewrite E, IH. split.
      * intros (H1 & i & H2 & ->). split; [exact H1|exists i; split; [lia|reflexivity]].
      * intros (H1 & i & H2 & ->). split; [exact H1|]. destruct (Nat.eq_dec i (S d)) as [->|N]; [|exists i; split; [lia|reflexivity]].
        replace (Z.of_nat (S d)) with (Z.of_nat d + 1) in * by lia. rewrite E in *. destruct d as [|d]; [cbn [Z.of_nat] in H1; rewrite bb_0 in H1; lia|].
        exists (S d). split; [lia|reflexivity].
Qed.
Lemma starts_sorted : forall ls from, StronglySorted Z.lt (starts from ls) /\ Forall (fun k => from <= k) (starts from ls).
Proof.
  induction ls as [|l ls IH]; intros from; cbn [starts]; [split; constructor|]. destruct (IH (from + 2 ^ Z.of_nat l)) as [H1 H2].
  assert (0 < 2 ^ Z.of_nat l) by (apply Z.pow_pos_nonneg; lia).
  split; constructor; [exact H1| |lia|]; revert H2; apply Forall_impl; intros; lia.
Qed.
Lemma sorted_same : forall l m : list Z, StronglySorted Z.lt l -> StronglySorted Z.lt m -> (forall x, In x l <-> In x m) -> l = m.
Proof.
  induction l as [|a l IH]; intros [|b m] Hl Hm H; [reflexivity|destruct (proj2 (H b) (or_introl eq_refl))|destruct (proj1 (H a) (or_introl eq_refl))|].
  inversion Hl as [|? ? Sl Fl]; subst. inversion Hm as [|? ? Sm Fm]; subst. rewrite Forall_forall in Fl, Fm.
  assert (a = b).
  { destruct (proj1 (H a) (or_introl eq_refl)) as [E|E]; [now symmetry|]. destruct (proj2 (H b) (or_introl eq_refl)) as [E'|E']; [assumption|].
    specialize (Fl b E'). specialize (Fm a E). lia. }
  subst b. f_equal. apply IH; try assumption. intros x. split; intros Hx.
  - destruct (proj1 (H x) (or_intror Hx)) as [<-|E]; [specialize (Fl _ Hx); lia|exact E].
  - destruct (proj2 (H x) (or_intror Hx)) as [<-|E]; [specialize (Fm _ Hx); lia|exact E].
Qed.
Lemma sort_strict l : NoDup l -> StronglySorted Z.lt (sort Z.leb l).
Proof.
  intros Hn. assert (HS : StronglySorted (fun a b => Z.leb a b = true) (sort Z.leb l)).
  { apply sort_sorted; [|]; intros; rewrite ?Z.leb_le in *; lia. }
  assert (HN : NoDup (sort Z.leb l)) by (apply sort_nodup, Hn).
  induction HS as [|a m HS IH HF]; [constructor|]. inversion HN as [|? ? N1 N2]; subst. constructor; [now apply IH|].
  rewrite Forall_forall in *. intros x Hx. specialize (HF x Hx). apply Z.leb_le in HF. assert (x <> a) by (intros ->; contradiction). lia.
Qed.

(** ** Keys of the models *)
Section keys.
  Context {S : Type} (M : model S) (fresh : S).
  Lemma del_keys {V} (d d' : dict V) k x : dict_del d k = Ok d' -> In x (map fst d') <-> In x (map fst d) /\ x <> k.
  Proof.
    unfold dict_del. destruct (dict_mem d k); [|discriminate]. intros [= <-]. rewrite !in_map_iff. split.
    - intros (kv & <- & H). apply filter_In in H as [H1 H2]. apply negb_true_iff, Z.eqb_neq in H2. split; [exists kv; now split|exact H2].
    - intros ((kv & <- & H) & N). exists kv. split; [reflexivity|]. apply filter_In. split; [exact H|]. now apply negb_true_iff, Z.eqb_neq.
  Qed.
  Lemma clear_keys t : 0 <= t -> forall k i (models : dict (S * R)) completed m' c', 0 <= i -> clear_done t k i models completed = Ok (m', c') ->
    (forall x, In x (map fst m') -> In x (map fst models)) /\ (In 0 (map fst models) -> In 0 (map fst m')).
  Proof.
    intros Ht. induction k as [|k IH]; intros i models completed m' c' Hi E; cbn [clear_done] in E; [injection E as <- <-; tauto|].
    destruct (py_set completed i 0%R) as [c1|]; [|discriminate E]. cbn [bind] in E.
    destruct (Z.eqb_spec (bb t i) (bb t (i + 1))) as [Eb|Nb]; cbn [bind] in E.
    - apply IH in E; [exact E|lia].
    - destruct (dict_del models (bb t i)) as [m1|] eqn:D; [|discriminate E]. cbn [bind] in E. apply IH in E as [E1 E2]; [|lia].
      pose proof (fun x => del_keys models m1 (bb t i) x D) as HK. split; [intros x Hx; now apply HK, E1|].
      intros H0. apply E2, HK. split; [exact H0|]. intros Z0. apply Nb. rewrite <- Z0. pose proof (bb_nonneg t (i + 1) Ht ltac:(lia)).
      pose proof (bb_mono t i (i + 1) Ht ltac:(lia)). lia.
  Qed.
  Lemma set_keys {V} (d : dict V) k v x : In x (map fst (dict_set d k v)) <-> x = k \/ In x (map fst d).
  Proof.
    induction d as [|[k' v'] d IH]; cbn [dict_set map In]; [intuition|]. destruct (Z.eqb_spec k' k) as [->|N]; cbn [map In fst]; [intuition|].
    rewrite IH. cbn [fst]. intuition.
  Qed.
  Lemma mapM_keys (f : S * R -> result (S * R)) : forall d d' : dict (S * R),
    mapM (fun kv => do v <- f (snd kv); Ok (fst kv, v)) d = Ok d' -> map fst d' = map fst d.
  Proof.
    induction d as [|kv d IH]; intros d' E; cbn [mapM] in E; [injection E as <-; reflexivity|]. destruct (f (snd kv)); [|discriminate E]. cbn [bind] in E.
    destruct (mapM _ d) as [r|]; [|discriminate E]. cbn [bind] in E. injection E as <-. cbn [map fst]. f_equal. now apply IH.
  Qed.
  Definition kinv (s : lptw (S := S)) : Prop := 0 <= lw_steps s /\ In 0 (map fst (lw_models s)) /\
    (lw_steps s = 0 /\ map fst (lw_models s) = [0] \/ 0 < lw_steps s /\ forall k, In k (map fst (lw_models s)) -> k < lw_steps s).
  Lemma kinv_step s a h w s' l : kinv s -> lptw_update M fresh s a h w = Ok (s', l) -> kinv s'.
  Proof.
    intros (H1 & H2 & H3) E. unfold lptw_update in E. destruct (lw_steps s >=? max_steps s); [discriminate E|]. cbv zeta in E.
    set (t := lw_steps s) in *. destruct (mapM _ _) as [m2|] eqn:E2; [|discriminate E]. cbn [bind] in E.
    assert (EK : map fst m2 = map fst (dict_set (lw_models s) t (fresh, 0%R))).
    { apply (mapM_keys (fun v => do (m', l) <- m_update M (fst v) a [] 1; Ok (m', snd v + l)%R)). etransitivity; [|exact E2]. clear.
      generalize (dict_set (lw_models s) t (fresh, 0%R)). intros d. induction d as [|[k [m lp]] d IH]; [reflexivity|]. cbn [mapM fst snd].
      destruct (m_update M m a [] 1) as [[m' l]|]; cbn [bind]; [|reflexivity]. now rewrite IH. }
    destruct (dict_lookup m2 t) as [[? part0]|]; [|discriminate E]. cbn [bind] in E.
    destruct (walk _ _ _ _ _ _ _ _) as [[part complete]|]; [|discriminate E]. cbn [bind] in E.
    destruct (py_set _ _ _) as [c1|]; [|discriminate E]. cbn [bind] in E.
    destruct (clear_done _ _ _ _ _) as [[m3 c3]|] eqn:E3; [|discriminate E]. cbn [bind] in E. injection E as <- _.
    apply (clear_keys t H1) in E3 as [K1 K2]; [|lia]. unfold kinv. cbn [lw_steps lw_models]. split; [lia|]. split.
    - apply K2. rewrite EK. apply set_keys. now right.
    - right. split; [lia|]. intros k Hk. apply K1 in Hk. rewrite EK in Hk. apply set_keys in Hk as [->|Hk]; [lia|].
      destruct H3 as [[H3 H4]|[H3 H4]]; [rewrite H4 in Hk; destruct Hk as [<-|[]]; lia|specialize (H4 k Hk); lia].
  Qed.
  Lemma kinv_run : forall evs s s' l, kinv s -> run (LPTW_model M fresh) s evs = Ok (s', l) -> kinv s'.
  Proof.
    induction evs as [|e evs IH]; intros s s' l HK E; cbn [run] in E; [injection E as <- <-; exact HK|]. cbn [LPTW_model m_update] in E.
    destruct (lptw_update M fresh s _ _ _) as [[s1 l1]|] eqn:E1; [|discriminate E]. cbn [bind] in E.
    destruct (run _ s1 evs) as [[s2 l2]|] eqn:E2; [|discriminate E]. cbn [bind] in E. injection E as <- _.
    eapply IH; [|exact E2]. eapply kinv_step; eassumption.
  Qed.
End keys.

Section facts.
  Context {S : Type} (M : model S) (fresh : S).
  Context (A : list Z) (Inv : S -> Prop).
  Notation bare := (fun h : list Z => h = []).
  Notation unit_weight := (fun w : R => w = 1%R).
  Hypothesis HS : steps M A bare unit_weight Inv.
  Hypothesis Hinv : Inv fresh.
  Notation ok := (ok_event A bare unit_weight).
  Notation P d evs := (ptw_prob M (fun _ : nat => fresh) 0 d 0 evs).

  Theorem model_texts name D evs : Forall ok evs -> (length evs <= 2 ^ D)%nat ->
    exists s l, run (LPTW_model M fresh) (lptw_init fresh D) evs = Ok (s, l) /\
      get_model_string name s = join (lit " ") (map (fun k => name ++ lit "(" ++ str_of_int k ++ lit ":" ++ str_of_int (Z.of_nat (length evs) - 1) ++ lit ")")
        (match evs with [] => [0] | _ => starts 0 (lev (Datatypes.S D) (Z.of_nat (length evs))) end)).
  Proof.
    intros Hok HL. destruct (lptw_run M fresh A Inv HS Hinv D evs Hok HL) as (s & l & Hr & HI & _). exists s, l. split; [exact Hr|].
    assert (HK : kinv s). { eapply kinv_run; [|exact Hr]. split; [reflexivity|]. split; [now left|]. left. split; reflexivity. }
    unfold get_model_string, model_text. rewrite (li_steps _ _ _ _ _ HI). f_equal.
    destruct HK as (K1 & K2 & K3). pose proof (li_steps _ _ _ _ _ HI) as Es. destruct evs as [|e evs].
    - destruct K3 as [[_ ->]|[K3 _]]; [reflexivity|cbn [length Z.of_nat] in Es; lia].
    - set (E := e :: evs) in *. set (n := Z.of_nat (length E)) in *. assert (Hn : 0 < n) by (unfold n, E; cbn [length]; lia).
      destruct K3 as [[K3 _]|[_ K3]]; [lia|]. rewrite Es in K3. f_equal.
      assert (H0 : bb n (Z.of_nat (Datatypes.S D)) = 0).
      { apply bb_small; [|lia]. split; [lia|]. rewrite Nat2Z.inj_succ, Z.pow_succ_r by lia. pose proof (to_nat_pow D).
        assert (0 < 2 ^ Z.of_nat D) by (apply Z.pow_pos_nonneg; lia). lia. }
      apply sorted_same; [apply sort_strict, (li_nodup _ _ _ _ _ HI)|apply starts_sorted|]. intros k. rewrite sort_in.
      rewrite <- H0 at 1. rewrite (lev_starts (Datatypes.S D) n ltac:(lia)). split.
      + intros Hk. split; [specialize (K3 k Hk); lia|]. destruct (li_keys _ _ _ _ _ HI k Hk) as (i & Hi & ->). exists i. split; [lia|reflexivity].
      + intros (N & i & Hi & ->). destruct (Nat.eq_dec i (Datatypes.S D)) as [->|Ni]; [now rewrite H0|].
        apply (li_needed _ _ _ _ _ HI); [lia|exact N].
  Qed.

  Hypothesis Hunc : uncertain M A Inv.
  Lemma seq_le m evs : Inv m -> Forall ok evs -> (0 < seq_prob M m evs <= 1 /\ (evs <> [] -> seq_prob M m evs < 1))%R.
  Proof.
    intros Hm HF. revert m Hm. induction HF as [|e evs (Ha & Hh & Hw) HF IH]; intros m Hm; cbn [seq_prob]; [split; [lra|congruence]|].
    destruct (HS m (ev_sym e) (ev_hist e) (ev_wt e) Hm Ha Hh Hw) as (m' & l & Hu & Hp & Hm'). rewrite Hu. destruct (IH m' Hm') as [I1 _].
    rewrite Hh in Hp. pose proof (Hunc m _ l Hm Ha Hp) as Hl. apply exp_increasing in Hl. rewrite exp_0 in Hl. pose proof (exp_pos l).
    assert (exp l * seq_prob M m' evs <= exp l * 1)%R by (apply Rmult_le_compat_l; lra).
    assert (0 < exp l * seq_prob M m' evs)%R by (apply Rmult_lt_0_compat; lra). split; [lra|intros _; lra].
  Qed.
  Lemma ptw_le d : forall evs s, Forall ok evs ->
    (0 < ptw_prob M (fun _ : nat => fresh) 0 d s evs <= 1 /\ (evs <> [] -> ptw_prob M (fun _ : nat => fresh) 0 d s evs < 1))%R.
  Proof.
    induction d as [|d IH]; intros evs s HF; cbn [ptw_prob]; [now apply seq_le|]. destruct (seq_le fresh evs Hinv HF) as [S1 S2].
    destruct (IH (firstn (2 ^ (0 + d)) evs) s (Forall_firstn _ _ _ HF)) as [L _]. destruct (IH (skipn (2 ^ (0 + d)) evs) (s + 2 ^ (0 + d))%nat (Forall_skipn _ _ _ HF)) as [R _].
    set (a := ptw_prob _ _ _ d s _) in *. set (b := ptw_prob _ _ _ d (s + _)%nat _) in *.
    assert (0 < a * b)%R by (apply Rmult_lt_0_compat; lra). assert (a * b <= 1 * 1)%R by (apply Rmult_le_compat; lra).
    split; [lra|]. intros Hne. specialize (S2 Hne). lra.
  Qed.
  Theorem child_texts D evs : Forall ok evs -> (length evs <= 2 ^ D)%nat ->
    exists s l, run (LPTW_model M fresh) (lptw_init fresh D) evs = Ok (s, l) /\
      get_child_string s = Ok (join (lit " ") (map (fun i => lit "PTW^" ++ str_of_int (Z.of_nat i)) (lev (Datatypes.S D) (Z.of_nat (length evs))))).
  Proof.
    intros Hok HL. destruct (lptw_run M fresh A Inv HS Hinv D evs Hok HL) as (s & l & Hr & HI & _). exists s, l. split; [exact Hr|].
    unfold get_child_string, max_steps. rewrite (li_steps _ _ _ _ _ HI), (li_depth _ _ _ _ _ HI). set (n := Z.of_nat (length evs)).
    pose proof (to_nat_pow D) as HP. assert (0 < 2 ^ Z.of_nat D) by (apply Z.pow_pos_nonneg; lia).
    destruct (Z.eqb_spec n (2 ^ Z.of_nat D)) as [E|N].
    - cbn [lev]. rewrite E, Z.pow2_bits_true by lia.
      assert (EL : lev D (2 ^ Z.of_nat D) = []).
      { assert (forall i, (i <= D)%nat -> lev i (2 ^ Z.of_nat D) = []) as HH; [|now apply HH].
        induction i as [|i IH]; intros Hi; [reflexivity|]. cbn [lev]. rewrite Z.pow2_bits_false by lia. apply IH. lia. }
      rewrite EL. reflexivity.
    - destruct (li_completed _ _ _ _ _ HI) as [HCl HC].
      assert (EL : forall d, (d <= D)%nat -> done_levels (lw_completed s) d = Ok (lev d n)).
      { induction d as [|d IH]; intros Hd; cbn [done_levels lev]; [reflexivity|]. destruct (HC d ltac:(lia)) as (c & Hc & Hce).
        rewrite (py_get_nth _ _ _ Hc). cbn [bind]. rewrite IH by lia. cbn [bind]. f_equal. unfold done_prob in Hce. fold n in Hce.
        destruct (Z.testbit n (Z.of_nat d)) eqn:B.
        - destruct (Req_EM_T c 0) as [->|]; [|reflexivity]. exfalso. rewrite exp_0 in Hce.
          assert (HF : Forall ok (firstn (2 ^ d) (skipn (Z.to_nat (bb n (Z.of_nat (Datatypes.S d)))) evs))) by now apply Forall_firstn, Forall_skipn.
          destruct (ptw_le d _ 0 HF) as [_ HLt]. enough (1 < 1)%R by lra. rewrite Hce at 1. apply HLt.
          intros E0. apply (f_equal (@length _)) in E0. rewrite firstn_length, skipn_length in E0. cbn [length] in E0.
          replace (Z.of_nat (Datatypes.S d)) with (Z.of_nat d + 1) in E0 by lia.
          pose proof (bit_lower n (Z.of_nat d) ltac:(lia) ltac:(lia) B). pose proof (to_nat_pow d). assert (0 < 2 ^ Z.of_nat d) by (apply Z.pow_pos_nonneg; lia).
          pose proof (bb_nonneg n (Z.of_nat d + 1) ltac:(lia) ltac:(lia)). lia.
        - destruct (Req_EM_T c 0) as [|Nc]; [reflexivity|]. exfalso. apply Nc. apply exp_inv. now rewrite exp_0. }
      rewrite EL by lia. cbn [bind]. f_equal. f_equal. cbn [lev]. replace (Z.testbit n (Z.of_nat D)) with false; [reflexivity|].
      symmetry. destruct (Z.eq_dec n 0) as [->|]; [apply Z.testbit_0_l|]. apply Z.bits_above_log2; [lia|]. apply Z.log2_lt_pow2; lia.
  Qed.
End facts.

(** ** For KT *)
Lemma others_pos (d : dict R) a c b e : NoDup (map fst d) -> (forall v, In v (map snd d) -> 0 < v)%R -> In (a, c) d -> In (b, e) d -> a <> b -> (c < Rsum (map snd d))%R.
Proof.
  intros Hn Hp. revert a c b e.
  assert (HP : forall l : dict R, (forall v, In v (map snd l) -> 0 < v)%R -> forall a c, In (a, c) l -> (c <= Rsum (map snd l) /\ 0 < Rsum (map snd l))%R).
  { induction l as [|[k v] l IH]; intros Hl a c H; [destruct H|]. cbn [map snd] in *. rewrite Rsum_cons.
    assert (H0 : (0 <= Rsum (map snd l))%R). { destruct l as [|[k2 v2] l]; [cbn [map]; rewrite Rsum_nil; lra|]. destruct (IH (fun x Hx => Hl x (or_intror Hx)) k2 v2 (or_introl eq_refl)). lra. }
    pose proof (Hl v (or_introl eq_refl)). destruct H as [[= <- <-]|H]; [split; lra|]. destruct (IH (fun x Hx => Hl x (or_intror Hx)) a c H). split; lra. }
  induction d as [|[k v] d IH]; intros a c b e Ha Hb N; [destruct Ha|]. cbn [map snd fst] in *. rewrite Rsum_cons. inversion Hn as [|? ? N1 N2]; subst.
  assert (Hd : forall v, In v (map snd d) -> (0 < v)%R) by (intros x Hx; apply Hp; now right). pose proof (Hp v (or_introl eq_refl)).
  destruct Ha as [[= <- <-]|Ha].
  - destruct Hb as [[= E _]|Hb]; [congruence|]. destruct (HP d Hd b e Hb). lra.
  - destruct (HP d Hd a c Ha). lra.
Qed.
Lemma kt_uncertain A : (2 <= length A)%nat -> uncertain LKT_model A (lkt_inv A).
Proof.
  intros HL m a l (k & HR) Ha. cbn [LKT_model m_logp]. rewrite (lkt_logp A m k a [] HR). destruct HR as (_ & _ & HI). pose proof HI as (HA & Hpos & Hsum & Hnd & _).
  destruct (dict_get (kt_counts k) a) as [c|] eqn:E; [|apply dict_get_none in E; rewrite HA in E; contradiction].
  rewrite (kt_logp_ok A k a [] c HI E). intros [= <-]. apply dict_get_in in E.
  assert (Hb : exists b, In b A /\ b <> a).
  { destruct A as [|x [|y A']]; cbn [length] in HL; try lia. inversion Hnd as [|? ? Nx _]; subst. destruct (Z.eq_dec x a) as [->|]; [|exists x; split; [now left|assumption]].
    exists y. split; [right; now left|]. intros ->. apply Nx. now left. }
  destruct Hb as (b & Hb & Nb). rewrite <- HA in Hb, Hnd. apply in_map_iff in Hb as ([b' e] & Eb & Hb). cbn [fst] in Eb. subst b'.
  pose proof (others_pos (kt_counts k) a c b e Hnd Hpos E Hb ltac:(congruence)) as HLt. rewrite <- Hsum in HLt.
  assert (0 < c)%R by (apply Hpos; apply (in_map snd) in E; exact E).
  rewrite <- ln_1. apply ln_increasing; [apply Rdiv_lt_0_compat; lra|]. apply Rmult_lt_reg_r with (kt_sum k); [lra|]. unfold Rdiv. rewrite Rmult_assoc, Rinv_l by lra. lra.
Qed.

(** ** Blocks and intervals *)
Lemma size_pos ls : 0 <= size ls.
Proof. induction ls as [|l ls IH]; unfold size in *; cbn [fold_right]; [lia|]. assert (0 < 2 ^ Z.of_nat l) by (apply Z.pow_pos_nonneg; lia). lia. Qed.
Lemma size_small : forall ls b, StronglySorted (fun a b => (b < a)%nat) ls -> Forall (fun a => (a < b)%nat) ls -> size ls < 2 ^ Z.of_nat b.
Proof.
  induction ls as [|l ls IH]; intros b HS HF; unfold size; cbn [fold_right]; [apply Z.pow_pos_nonneg; lia|]. fold (size ls).
  inversion HS as [|? ? S1 F1]; subst. inversion HF as [|? ? Hb _]; subst. specialize (IH l S1 F1).
  assert (2 ^ Z.succ (Z.of_nat l) <= 2 ^ Z.of_nat b) by (apply Z.pow_le_mono_r; lia). rewrite Z.pow_succ_r in H by lia. lia.
Qed.
Theorem blocks_unique : forall ls ls' n, blocks ls n -> blocks ls' n -> ls = ls'.
Proof.
  induction ls as [|l ls IH]; intros [|m ms] n [S1 E1] [S2 E2]; [reflexivity| | |].
  - unfold size in *. cbn [fold_right] in *. fold (size ms) in *. pose proof (size_pos ms). assert (0 < 2 ^ Z.of_nat m) by (apply Z.pow_pos_nonneg; lia). lia.
  - unfold size in *. cbn [fold_right] in *. fold (size ls) in *. pose proof (size_pos ls). assert (0 < 2 ^ Z.of_nat l) by (apply Z.pow_pos_nonneg; lia). lia.
  - inversion S1 as [|? ? S1' F1]; subst. inversion S2 as [|? ? S2' F2]; subst. unfold size in E2 at 1. unfold size in E2. cbn [fold_right] in E2. fold (size ls) (size ms) in E2.
    pose proof (size_small ls l S1' F1). pose proof (size_small ms m S2' F2). pose proof (size_pos ls). pose proof (size_pos ms).
    assert (HLM : forall x y : nat, (x < y)%nat -> 2 * 2 ^ Z.of_nat x <= 2 ^ Z.of_nat y).
    { intros x y Hxy. rewrite <- Z.pow_succ_r by lia. apply Z.pow_le_mono_r; lia. }
    assert (l = m). { destruct (lt_eq_lt_dec l m) as [[L|L]|L]; [pose proof (HLM _ _ L); lia|exact L|pose proof (HLM _ _ L); lia]. }
    subst m. f_equal. apply (IH ms (size ls)); split; try assumption; lia.
Qed.

Theorem interval {S} (s : lptw (S := S)) d t : 0 <= d -> 0 <= t -> exists start, to_string s (Some d) (Some t) =
    Ok (lit "PTW^" ++ str_of_int d ++ lit "(" ++ str_of_int start ++ lit ":" ++ str_of_int t ++ lit ")") /\
  (2 ^ d | start) /\ start <= t < start + 2 ^ d.
Proof.
  intros Hd Ht. exists (bb t d). unfold to_string. destruct (Z.ltb_spec t 0); [lia|]. destruct (Z.ltb_spec d 0); [lia|]. split; [reflexivity|].
  split; [now apply boundary_spec|]. split; [now apply bb_le|]. now apply boundary_next.
Qed.

Section top.
  Context {S : Type} (M : model S) (fresh : S) (A : list Z) (Inv : S -> Prop).
  Theorem children D evs : steps M A (fun h => h = []) (fun w => w = 1%R) Inv -> Inv fresh -> uncertain M A Inv ->
    Forall (ok_event A (fun h => h = []) (fun w => w = 1%R)) evs -> (length evs <= 2 ^ D)%nat ->
    exists s l ls, run (LPTW_model M fresh) (lptw_init fresh D) evs = Ok (s, l) /\ blocks ls (Z.of_nat (length evs)) /\
      get_child_string s = Ok (join (lit " ") (map (fun i => lit "PTW^" ++ str_of_int (Z.of_nat i)) ls)).
  Proof.
    intros HS HI HU HF HL. destruct (child_texts M fresh A Inv HS HI HU D evs HF HL) as (s & l & Hr & E). do 3 eexists. split; [exact Hr|]. split; [|exact E].
    apply lev_blocks. pose proof (to_nat_pow D). lia.
  Qed.
  Theorem models D name evs : steps M A (fun h => h = []) (fun w => w = 1%R) Inv -> Inv fresh ->
    Forall (ok_event A (fun h => h = []) (fun w => w = 1%R)) evs -> (0 < length evs <= 2 ^ D)%nat ->
    exists s l ls, run (LPTW_model M fresh) (lptw_init fresh D) evs = Ok (s, l) /\ blocks ls (Z.of_nat (length evs)) /\
      get_model_string name s = join (lit " ") (map (fun k => name ++ lit "(" ++ str_of_int k ++ lit ":" ++ str_of_int (Z.of_nat (length evs) - 1) ++ lit ")") (starts 0 ls)).
  Proof.
    intros HS HI HF HL. destruct (model_texts M fresh A Inv HS HI name D evs HF ltac:(lia)) as (s & l & Hr & E). do 3 eexists. split; [exact Hr|]. split; cycle 1.
    - rewrite E. destruct evs; [cbn [length] in HL; lia|]. reflexivity.
    - apply lev_blocks. pose proof (to_nat_pow D). lia.
  Qed.
  Theorem models_first name D : get_model_string name (lptw_init fresh D) = name ++ lit "(0:-1)".
  Proof. reflexivity. Qed.
  Theorem whole D evs : steps M A (fun h => h = []) (fun w => w = 1%R) Inv -> Inv fresh ->
    Forall (ok_event A (fun h => h = []) (fun w => w = 1%R)) evs -> (length evs <= 2 ^ D)%nat ->
    exists s l, run (LPTW_model M fresh) (lptw_init fresh D) evs = Ok (s, l) /\
      to_string s None None = Ok (lit "PTW^" ++ str_of_int (Z.of_nat D) ++ lit "(0:" ++ str_of_int (Z.of_nat (length evs) - 1) ++ lit ")").
  Proof.
    intros HS HI HF HL. destruct (lptw_run M fresh A Inv HS HI D evs HF HL) as (s & l & Hr & HL2 & _). exists s, l. split; [exact Hr|].
    unfold to_string. rewrite (li_steps _ _ _ _ _ HL2), (li_depth _ _ _ _ _ HL2). pose proof (to_nat_pow D).
    assert (0 < 2 ^ Z.of_nat D) by (apply Z.pow_pos_nonneg; lia).
    destruct (Z.ltb_spec (Z.of_nat (length evs) - 1) 0); [reflexivity|]. destruct (Z.ltb_spec (Z.of_nat D) 0); [lia|]. rewrite bb_small by lia. reflexivity.
  Qed.
End top.
(** a certain prediction hides its block *)
Theorem certain : exists s l, run (LPTW_model LKT_model (lkt_init [0])) (lptw_init (lkt_init [0]) 1) [Event 0 [] 1%R] = Ok (s, l) /\ get_child_string s = Ok [].
Proof.
  assert (HS : steps LKT_model [0] (fun h => h = []) (fun w => w = 1%R) (lkt_inv [0])) by apply lkt_steps.
  assert (HI : lkt_inv [0] (lkt_init [0])) by (apply lkt_inv_init; [repeat constructor; intros []|discriminate]).
  assert (HF : Forall (ok_event [0] (fun h : list Z => h = []) (fun w => w = 1%R)) [Event 0 [] 1%R]) by (repeat constructor).
  destruct (lptw_run LKT_model (lkt_init [0]) [0] (lkt_inv [0]) HS HI 1 [Event 0 [] 1%R] HF ltac:(cbn; lia)) as (s & l & Hr & HL & _). exists s, l. split; [exact Hr|].
  unfold get_child_string, max_steps. rewrite (li_steps _ _ _ _ _ HL), (li_depth _ _ _ _ _ HL). cbn [length Z.of_nat Pos.of_succ_nat Z.eqb Z.pow Z.pow_pos Pos.iter].
  destruct (li_completed _ _ _ _ _ HL) as [_ HC]. destruct (HC 0%nat ltac:(lia)) as (c & Hc & Hce). cbn [done_levels]. rewrite (py_get_nth _ _ _ Hc). cbn [bind].
  destruct (Req_EM_T c 0) as [|N]; [reflexivity|]. exfalso. apply N. apply exp_inv. rewrite Hce, exp_0. unfold done_prob. cbn [length].
  change (Z.testbit (Z.of_nat 1) (Z.of_nat 0)) with true. cbn iota. replace (skipn _ _) with [Event 0 [] 1%R] by reflexivity. cbn [firstn Nat.pow ptw_prob seq_prob LKT_model m_update].
  unfold lkt_update, lkt_log_predict, dict_lookup, lkt_init. cbn [length INR fold_left dict_set lk_counts lk_steps ev_sym ev_hist ev_wt dict_get Z.eqb bind].
  change (IZR (0 + 1)) with 1%R. replace (1 / 1)%R with 1%R by lra. rewrite py_log_ok by lra. cbn [bind]. rewrite ln_1. replace (0 - 0)%R with 0%R by lra.
  rewrite exp_0. lra.
Qed.
