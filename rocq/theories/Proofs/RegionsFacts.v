(** get_regions lists the maximal runs of every label. *)
From Coq Require Import Sorted.
From Verif Require Import Model.Regions Spec.Regions.
Open Scope Z_scope.

Lemma filter_sorted {A} (R : A -> A -> Prop) (f : A -> bool) l :
  StronglySorted R l -> StronglySorted R (filter f l).
Proof.
  induction 1 as [|x l _ IH Hx]; cbn; [constructor|].
  destruct (f x); [|exact IH]. constructor; [exact IH|].
  rewrite Forall_forall in *. intros y Hy. apply filter_In in Hy. apply Hx, Hy.
Qed.

(** ** Consecutive pairs of an increasing list *)
Definition pairs_of (x : Z) (l : list Z) (z : Z) : list (Z * Z) := combine (x :: l) (l ++ [z]).

Lemma pairs_nil x z : pairs_of x [] z = [(x, z)].
Proof. reflexivity. Qed.
Lemma pairs_cons x y l z : pairs_of x (y :: l) z = (x, y) :: pairs_of y l z.
Proof. reflexivity. Qed.

Lemma pairs_in : forall l x z a b, StronglySorted Z.lt (x :: l ++ [z]) ->
  (In (a, b) (pairs_of x l z) <->
   In a (x :: l ++ [z]) /\ In b (x :: l ++ [z]) /\ a < b /\
   forall c, In c (x :: l ++ [z]) -> ~ (a < c < b)).
Proof.
  induction l as [|y l IH]; intros x z a b HS.
  - rewrite pairs_nil. cbn in *. inversion HS as [|? ? ? Hx]; subst.
    rewrite Forall_forall in Hx. specialize (Hx z (or_introl eq_refl)). split.
    + intros [E|[]]. injection E as -> ->. repeat split; [tauto|tauto|lia|].
      intros c [->|[->|[]]]; lia.
    + intros ([->|[->|[]]] & [->|[->|[]]] & L & _); first [left; reflexivity | exfalso; lia].
  - rewrite pairs_cons. inversion HS as [|? ? HS' Hx]; subst. cbn [app] in *.
    specialize (IH y z a b HS').
    rewrite Forall_forall in Hx.
    inversion HS' as [|? ? _ Hy]; subst. rewrite Forall_forall in Hy.
    cbn [In]. rewrite IH. clear IH. split.
    + intros [E|(Ha & Hb & L & N)].
      * injection E as -> ->. repeat split; [now left|right; now left| |].
        -- apply Hx. now left.
        -- intros c [->|[->|Hc]]; [lia|lia|]. specialize (Hy c Hc). lia.
      * repeat split; [now right|now right|exact L|].
        intros c [Ec|Hc].
        -- assert (x < a) by (apply Hx, Ha). lia.
        -- apply N. exact Hc.
    + intros (Ha & Hb & L & N).
      destruct Ha as [->|Ha].
      * left. f_equal. destruct Hb as [->|Hb]; [lia|].
        destruct Hb as [->|Hb]; [reflexivity|].
        specialize (N y). specialize (Hy b Hb).
        assert (a < y) by (apply Hx; now left). exfalso. apply N; [right; now left|lia].
      * right. destruct Hb as [->|Hb].
        -- assert (b < a) by (apply Hx, Ha). lia.
        -- repeat split; [exact Ha|exact Hb|exact L|]. intros c Hc. apply N. right; exact Hc.
Qed.

Lemma pairs_sorted : forall l x z, StronglySorted Z.lt (x :: l ++ [z]) ->
  StronglySorted (fun p q => snd p <= fst q) (pairs_of x l z).
Proof.
  induction l as [|y l IH]; intros x z HS.
  - rewrite pairs_nil. repeat constructor.
  - rewrite pairs_cons. inversion HS as [|? ? HS' Hx]; subst. cbn [app] in *.
    constructor; [apply IH, HS'|]. apply Forall_forall. intros [a b] Hab.
    apply pairs_in in Hab; [|exact HS']. destruct Hab as ([->|Ha] & _ & _ & _); cbn; [lia|].
    inversion HS' as [|? ? _ Hy]; subst. rewrite Forall_forall in Hy. specialize (Hy a Ha). lia.
Qed.

(** ** Positions *)
Lemma label_head {A} j (x : A) l : label_at j (x :: l) j = Some x.
Proof. unfold label_at. rewrite (proj2 (Z.ltb_ge j j)) by lia. now rewrite Z.sub_diag. Qed.

Lemma label_tail {A} j (x : A) l i : i <> j -> label_at j (x :: l) i = label_at (j + 1) l i.
Proof.
  intros N. unfold label_at. destruct (Z.ltb_spec i j), (Z.ltb_spec i (j + 1)); try lia; [reflexivity|].
  replace (Z.to_nat (i - j)) with (S (Z.to_nat (i - (j + 1)))) by lia. reflexivity.
Qed.

Lemma label_some {A} j (l : list A) i : label_at j l i <> None <-> j <= i < j + Z.of_nat (length l).
Proof.
  unfold label_at. destruct (Z.ltb_spec i j).
  - split; [congruence|lia].
  - rewrite nth_error_Some. lia.
Qed.

Section regions.
  Context {A : Type} (leq : A -> A -> bool).
  Hypothesis leq_spec : forall x y, leq x y = true <-> x = y.

  Lemma leq_refl x : leq x x = true. Proof. now apply leq_spec. Qed.
  Lemma leq_neq x y : x <> y -> leq x y = false.
  Proof. intros N. destruct (leq x y) eqn:E; [|reflexivity]. apply leq_spec in E. contradiction. Qed.

  (** *** grouping *)
  Lemma gd_get_set {V} (d : list (A * V)) k v k' :
    gd_get leq (gd_set leq d k v) k' = if leq k k' then Some v else gd_get leq d k'.
  Proof.
    induction d as [|[k0 v0] d IH]; cbn; [reflexivity|].
    destruct (leq k0 k) eqn:E; cbn.
    - apply leq_spec in E as ->. destruct (leq k k'); reflexivity.
    - rewrite IH. destruct (leq k0 k') eqn:E'; [|reflexivity].
      apply leq_spec in E' as ->. destruct (leq k k') eqn:E2; [|reflexivity].
      apply leq_spec in E2 as ->. rewrite leq_refl in E. discriminate.
  Qed.

  Lemma gd_set_keys {V} (d : list (A * V)) k v x :
    In x (map fst (gd_set leq d k v)) <-> x = k \/ In x (map fst d).
  Proof.
    induction d as [|[k0 v0] d IH]; cbn.
    - intuition congruence.
    - destruct (leq k0 k) eqn:E; cbn.
      + apply leq_spec in E as ->. intuition congruence.
      + rewrite IH. tauto.
  Qed.

  Lemma gd_set_nodup {V} (d : list (A * V)) k v :
    NoDup (map fst d) -> NoDup (map fst (gd_set leq d k v)).
  Proof.
    induction d as [|[k0 v0] d IH]; cbn; intros H.
    - repeat constructor. intros [].
    - inversion H as [|? ? N H']; subst. destruct (leq k0 k) eqn:E; cbn.
      + constructor; assumption.
      + constructor; [|apply IH, H']. intros Hin. apply gd_set_keys in Hin as [->|Hin].
        * rewrite leq_refl in E. discriminate.
        * contradiction.
  Qed.

  Lemma gd_get_in {V} (d : list (A * V)) k v : gd_get leq d k = Some v -> In (k, v) d.
  Proof.
    induction d as [|[k0 v0] d IH]; cbn; [discriminate|].
    destruct (leq k0 k) eqn:E.
    - apply leq_spec in E as ->. intros [= ->]. now left.
    - intros H. right. apply IH, H.
  Qed.

  Lemma gd_get_keys {V} (d : list (A * V)) k :
    In k (map fst d) <-> exists v, gd_get leq d k = Some v.
  Proof.
    induction d as [|[k0 v0] d IH]; cbn.
    - split; [intros []|intros [v H]; discriminate].
    - destruct (leq k0 k) eqn:E.
      + apply leq_spec in E as ->. split; [intros _; eauto|intros _; now left].
      + rewrite <- IH. split; [intros [->|H]; [rewrite leq_refl in E; discriminate|exact H]|now right].
  Qed.

  (** *** the points of change *)
  Fixpoint chg (i : Z) (p : option A) (l : list A) : list Z :=
    match l with
    | [] => []
    | x :: l' => (if neq_shifted leq x p then [i] else []) ++ chg (i + 1) (Some x) l'
    end.

  Lemma chg_from s : forall l k p,
    map fst (filter (fun q => neq_shifted leq (fst (snd q)) (snd (snd q)))
      (combine (map (fun i => s + Z.of_nat i) (seq k (length l)))
         (combine l (firstn (length l) (p :: map Some l))))) = chg (s + Z.of_nat k) p l.
  Proof.
    induction l as [|x l IH]; intros k p; [reflexivity|].
    cbn [length seq map firstn combine filter chg fst snd].
    specialize (IH (S k) (Some x)). replace (s + Z.of_nat (S k)) with (s + Z.of_nat k + 1) in IH by lia.
    rewrite <- IH. destruct (neq_shifted leq x p); reflexivity.
  Qed.

  Lemma all_changes_chg s l : all_changes leq s l = chg s None l.
  Proof.
    unfold all_changes, index_of, shift. rewrite chg_from. f_equal. lia.
  Qed.

  Lemma neq_shifted_true x p : neq_shifted leq x p = true <-> p <> Some x.
  Proof.
    destruct p as [y|]; cbn; [|split; congruence].
    rewrite negb_true_iff. split.
    - intros E [= ->]. rewrite leq_refl in E. discriminate.
    - intros N. apply leq_neq. congruence.
  Qed.

  Lemma chg_in : forall l j p i, In i (chg j p l) <->
    label_at j l i <> None /\ label_at j l i <> (if i =? j then p else label_at j l (i - 1)).
  Proof.
    induction l as [|x l IH]; intros j p i.
    - cbn [chg In]. split; [intros []|]. intros [H _]. exfalso. apply H. unfold label_at.
      destruct (i <? j); [reflexivity|]. now destruct (Z.to_nat (i - j)).
    - cbn [chg]. rewrite in_app_iff, IH. destruct (Z.eqb_spec i j) as [->|N].
      + rewrite label_head. assert (HN : label_at (j + 1) l j = None).
        { unfold label_at. now rewrite (proj2 (Z.ltb_lt j (j + 1))) by lia. }
        rewrite HN. destruct (neq_shifted leq x p) eqn:E.
        * apply neq_shifted_true in E. split; [|now left; left]. intros _. split; congruence.
        * split; [intros [[]|[H _]]; congruence|]. intros [_ H]. exfalso.
          assert (Hp : p <> Some x) by congruence. apply neq_shifted_true in Hp. congruence.
      + rewrite (label_tail j x l i) by exact N. split.
        * intros [H|[H1 H2]].
          -- destruct (neq_shifted leq x p); [destruct H as [H|[]]; congruence|destruct H].
          -- split; [exact H1|]. destruct (Z.eqb_spec i (j + 1)) as [->|N1].
             ++ replace (j + 1 - 1) with j by lia. now rewrite label_head.
             ++ assert (i - 1 <> j) by lia. now rewrite label_tail.
        * intros [H1 H2]. right. split; [exact H1|].
          destruct (Z.eqb_spec i (j + 1)) as [->|N1].
          -- replace (j + 1 - 1) with j in H2 by lia. now rewrite label_head in H2.
          -- assert (i - 1 <> j) by lia. now rewrite label_tail in H2.
  Qed.

  Lemma chg_sorted : forall l j p, StronglySorted Z.lt (chg j p l) /\ Forall (fun i => j <= i) (chg j p l).
  Proof.
    induction l as [|x l IH]; intros j p; cbn [chg]; [split; constructor|].
    destruct (IH (j + 1) (Some x)) as [H1 H2].
    assert (H3 : Forall (fun i => j < i) (chg (j + 1) (Some x) l)).
    { eapply Forall_impl; [|exact H2]. cbn. lia. }
    destruct (neq_shifted leq x p); cbn [app]; split.
    - constructor; assumption.
    - constructor; [lia|]. eapply Forall_impl; [|exact H3]. cbn. lia.
    - exact H1.
    - eapply Forall_impl; [|exact H3]. cbn. lia.
  Qed.

  Variables (start : Z) (labels : list A).

  Definition lab (v : Z * Z) : option A := label_at start labels (fst v).
  Definition is_lab (c : A) (v : Z * Z) : bool :=
    match lab v with Some x => leq x c | None => false end.

  Lemma series_lab i : series_get start labels i =
    match label_at start labels i with Some x => Ok x | None => Err KeyError end.
  Proof. unfold series_get, label_at. destruct (i <? start); reflexivity. Qed.

  Definition olist {V} (o : option (list V)) : list V := match o with Some l => l | None => [] end.

  Lemma group_spec : forall regions d,
    (forall v, In v regions -> lab v <> None) -> NoDup (map fst d) ->
    exists d', group_regions leq start labels regions d = Ok d' /\ NoDup (map fst d') /\
      (forall c, olist (gd_get leq d' c) = olist (gd_get leq d c) ++ filter (is_lab c) regions) /\
      (forall c, In c (map fst d') <-> In c (map fst d) \/ exists v, In v regions /\ lab v = Some c).
  Proof.
    induction regions as [|v regions IH]; intros d Hv Hd; cbn [group_regions].
    - exists d. repeat split; auto.
      + intros c. cbn. now rewrite app_nil_r.
      + intros [H|(v & [] & _)]. exact H.
    - rewrite series_lab. unfold lab in Hv.
      destruct (label_at start labels (fst v)) as [x|] eqn:E.
      2:{ exfalso. apply (Hv v (or_introl eq_refl)), E. }
      cbn [bind]. unfold gd_append.
      destruct (IH (gd_set leq d x (match gd_get leq d x with Some l => l ++ [v] | None => [v] end)))
        as (d' & H1 & H2 & H3 & H4).
      + intros w Hw. apply Hv. now right.
      + apply gd_set_nodup, Hd.
      + exists d'. split; [exact H1|]. split; [exact H2|]. split.
        * intros c. rewrite H3, gd_get_set. cbn [filter]. unfold is_lab at 2, lab. rewrite E.
          destruct (leq x c) eqn:Ec; [|reflexivity].
          apply leq_spec in Ec as ->. destruct (gd_get leq d c) as [l|]; cbn; [|reflexivity].
          now rewrite <- app_assoc.
        * intros c. rewrite H4, gd_set_keys. split.
          -- intros [[->|H]|(w & Hw & Ew)].
             ++ right. exists v. split; [now left|exact E].
             ++ now left.
             ++ right. exists w. split; [now right|exact Ew].
          -- intros [H|(w & [->|Hw] & Ew)].
             ++ left; now right.
             ++ left; left. unfold lab in Ew. congruence.
             ++ right. exists w. split; assumption.
  Qed.

  (** *** get_regions *)
  Definition cuts : list Z := tl (chg start None labels).
  Definition stop : Z := start + Z.of_nat (length labels).
  Hypothesis nonempty : labels <> [].

  Lemma chg_split : chg start None labels = start :: cuts.
  Proof. unfold cuts. destruct labels; [contradiction|]. reflexivity. Qed.

  Lemma cuts_in i : In i cuts <->
    start < i < stop /\ label_at start labels i <> label_at start labels (i - 1).
  Proof.
    pose proof (chg_in labels start None i) as H. rewrite chg_split in H.
    destruct (chg_sorted labels start None) as [HS _]. rewrite chg_split in HS.
    inversion HS as [|? ? _ HF]; subst. rewrite Forall_forall in HF.
    cbn [In] in H. pose proof (label_some start labels i) as HL. fold stop in HL.
    destruct (Z.eqb_spec i start) as [Ei|N].
    - split; [intros Hi; specialize (HF _ Hi); lia|lia].
    - split.
      + intros Hi. destruct (proj1 H (or_intror Hi)) as [H1 H2]. apply HL in H1. split; [lia|exact H2].
      + intros [Hi H2]. destruct (proj2 H) as [E|E]; [split; [apply HL; lia|exact H2]|congruence|exact E].
  Qed.

  Lemma cuts_sorted : StronglySorted Z.lt (start :: cuts ++ [stop]).
  Proof.
    destruct (chg_sorted labels start None) as [HS _]. rewrite chg_split in HS.
    change (start :: cuts ++ [stop]) with ((start :: cuts) ++ [stop]).
    assert (HF : Forall (fun i => i < stop) (start :: cuts)).
    { apply Forall_forall. intros i [<-|Hi].
      - unfold stop. destruct labels; [contradiction|cbn [length]; lia].
      - apply cuts_in in Hi. lia. }
    clear nonempty. induction HS as [|x l _ IH Hx]; cbn [app]; [repeat constructor|].
    inversion HF; subst. constructor; [apply IH; assumption|].
    apply Forall_app. split; [exact Hx|]. repeat constructor. assumption.
  Qed.

  Lemma index_nth k : (k < length labels)%nat ->
    nth_error (index_of start labels) k = Some (start + Z.of_nat k).
  Proof.
    intros H. unfold index_of. rewrite nth_error_map, (nth_error_nth' _ 0%nat) by (now rewrite seq_length).
    cbn. rewrite seq_nth by exact H. reflexivity.
  Qed.

  Lemma regions_unfold :
    get_regions leq start labels = group_regions leq start labels (pairs_of start cuts stop) [].
  Proof.
    assert (HL : (0 < length labels)%nat) by (destruct labels; [contradiction|cbn; lia]).
    assert (HI : length (index_of start labels) = length labels) by (unfold index_of; now rewrite map_length, seq_length).
    unfold get_regions.
    assert (E0 : py_get (index_of start labels) 0 = Ok start).
    { unfold py_get, py_index. rewrite HI. cbn [Z.ltb Z.leb Z.compare andb].
      destruct (Z.ltb_spec 0 (Z.of_nat (length labels))); [|lia]. cbn [bind Z.to_nat].
      rewrite index_nth by exact HL. f_equal. lia. }
    assert (E1 : py_get (index_of start labels) (-1) = Ok (stop - 1)).
    { unfold py_get, py_index. rewrite HI.
      replace (-1 <? 0) with true by reflexivity.
      destruct (Z.leb_spec 0 (-1 + Z.of_nat (length labels))); [|lia].
      destruct (Z.ltb_spec (-1 + Z.of_nat (length labels)) (Z.of_nat (length labels))); [|lia].
      cbn [andb bind]. rewrite index_nth by lia. f_equal. unfold stop. lia. }
    rewrite E0, E1. cbn [bind]. rewrite all_changes_chg, chg_split.
    change (py_get (start :: cuts) 0) with (Ok start). cbn [bind].
    rewrite Z.eqb_refl. unfold slice_from, slice_start.
    replace (1 <? 0) with false by reflexivity. cbn [length].
    rewrite Z.min_l by lia. cbn [Z.to_nat].
    change (Pos.to_nat 1) with 1%nat. cbn [skipn].
    replace (stop - 1 + 1) with stop by lia. reflexivity.
  Qed.

  (** inside a region nothing changes *)
  Lemma between a b i : In (a, b) (pairs_of start cuts stop) -> a <= i < b ->
    label_at start labels i = label_at start labels a.
  Proof.
    intros Hab Hi. apply pairs_in in Hab; [|exact cuts_sorted].
    destruct Hab as (Ha & Hb & L & N).
    assert (Hs : start <= a /\ b <= stop).
    { pose proof cuts_sorted as HS. inversion HS as [|? ? _ HF]; subst. rewrite Forall_forall in HF.
      assert (HT : forall x, In x (start :: cuts ++ [stop]) -> start <= x <= stop).
      { intros x [<-|Hx]; [unfold stop; lia|]. split; [specialize (HF _ Hx); lia|].
        apply in_app_or in Hx as [Hx|[<-|[]]]; [apply cuts_in in Hx; lia|lia]. }
      split; [apply HT, Ha|apply HT, Hb]. }
    remember (Z.to_nat (i - a)) as k eqn:Ek. revert i Hi Ek. induction k; intros i Hi Ek.
    - now replace i with a by lia.
    - rewrite <- (IHk (i - 1)) by lia.
      destruct (label_at start labels i) as [x|] eqn:E1.
      2:{ exfalso. apply (proj2 (label_some start labels i)); [fold stop; lia|exact E1]. }
      destruct (label_at start labels (i - 1)) as [y|] eqn:E2.
      2:{ exfalso. apply (proj2 (label_some start labels (i - 1))); [fold stop; lia|exact E2]. }
      destruct (leq x y) eqn:E; [apply leq_spec in E; congruence|].
      exfalso. apply (N i); [|lia]. right. apply in_or_app. left. apply cuts_in.
      split; [lia|]. rewrite E1, E2. intros [= ->]. rewrite leq_refl in E. discriminate.
  Qed.

  Lemma region_run a b c : In (a, b) (pairs_of start cuts stop) /\ label_at start labels a = Some c <->
    maximal_run start labels c a b.
  Proof.
    split.
    - intros [Hab Hc]. pose proof Hab as Hab'. apply pairs_in in Hab'; [|exact cuts_sorted].
      destruct Hab' as (Ha & Hb & L & N). split; [exact L|]. split.
      + intros i Hi. now rewrite (between a b i).
      + split.
        * destruct Ha as [<-|Ha].
          -- unfold label_at. rewrite (proj2 (Z.ltb_lt _ _)) by lia. discriminate.
          -- apply in_app_or in Ha as [Ha|[<-|[]]].
             ++ apply cuts_in in Ha. rewrite <- Hc. intros E. symmetry in E. tauto.
             ++ exfalso. assert (label_at start labels stop <> None) by congruence.
                apply label_some in H. fold stop in H. lia.
        * destruct Hb as [<-|Hb].
          -- exfalso. assert (label_at start labels a <> None) by congruence. apply label_some in H. lia.
          -- apply in_app_or in Hb as [Hb|[<-|[]]].
             ++ apply cuts_in in Hb. destruct Hb as [_ Hb].
                rewrite <- (between a b (b - 1)) in Hc by (try exact Hab; lia). congruence.
             ++ intros E. assert (label_at start labels stop <> None) by congruence.
                apply label_some in H. fold stop in H. lia.
    - intros (L & Hall & Hl & Hr).
      assert (Ha : start <= a < stop).
      { assert (label_at start labels a <> None) by (rewrite Hall by lia; discriminate).
        now apply label_some in H. }
      assert (Hb : start < b <= stop).
      { assert (label_at start labels (b - 1) <> None) by (rewrite Hall by lia; discriminate).
        apply label_some in H. fold stop in H. lia. }
      split; [|apply Hall; lia]. apply pairs_in; [exact cuts_sorted|]. repeat split.
      + destruct (Z.eq_dec a start) as [->|N]; [now left|]. right. apply in_or_app. left.
        apply cuts_in. split; [lia|]. rewrite Hall by lia. congruence.
      + right. apply in_or_app. destruct (Z.eq_dec b stop) as [->|N]; [right; now left|]. left.
        apply cuts_in. split; [lia|]. rewrite (Hall (b - 1)) by lia. congruence.
      + exact L.
      + intros i Hi Hi2. destruct Hi as [<-|Hi]; [lia|].
        apply in_app_or in Hi as [Hi|[<-|[]]]; [|lia].
        apply cuts_in in Hi as [_ Hi]. apply Hi. rewrite !Hall by lia. reflexivity.
  Qed.

  Lemma pair_lab v : In v (pairs_of start cuts stop) -> lab v <> None.
  Proof.
    destruct v as [a b]. intros Hab. apply pairs_in in Hab; [|exact cuts_sorted].
    destruct Hab as (Ha & Hb & L & _). unfold lab. cbn [fst]. apply label_some.
    pose proof cuts_sorted as HS. inversion HS as [|? ? _ HF]; subst. rewrite Forall_forall in HF.
    assert (HT : forall x, In x (start :: cuts ++ [stop]) -> start <= x <= stop).
    { intros x [<-|Hx]; [unfold stop; lia|]. split; [specialize (HF _ Hx); lia|].
      apply in_app_or in Hx as [Hx|[<-|[]]]; [apply cuts_in in Hx; lia|lia]. }
    apply HT in Ha. apply HT in Hb. fold stop. lia.
  Qed.

  Lemma every_label c : In c labels -> exists v, In v (pairs_of start cuts stop) /\ lab v = Some c.
  Proof.
    intros Hc. apply In_nth_error in Hc as [k Hk].
    assert (Hi : label_at start labels (start + Z.of_nat k) = Some c).
    { unfold label_at. destruct (Z.ltb_spec (start + Z.of_nat k) start); [lia|].
      replace (Z.to_nat (start + Z.of_nat k - start)) with k by lia. exact Hk. }
    assert (Hr : start <= start + Z.of_nat k < stop).
    { apply label_some. congruence. }
    (* the last cut not after the position *)
    assert (HG : forall l x z i, StronglySorted Z.lt (x :: l ++ [z]) -> x <= i < z ->
                 exists a b, In (a, b) (pairs_of x l z) /\ a <= i < b).
    { induction l as [|y l IH]; intros x z i HS Hi'.
      - exists x, z. split; [now left|exact Hi'].
      - rewrite pairs_cons. destruct (Z.lt_ge_cases i y).
        + exists x, y. split; [now left|lia].
        + inversion HS; subst. destruct (IH y z i) as (a & b & HA1 & HA2); [assumption|lia|].
          exists a, b. split; [now right|exact HA2]. }
    destruct (HG cuts start stop (start + Z.of_nat k) cuts_sorted Hr) as (a & b & Hab & Hin).
    exists (a, b). split; [exact Hab|]. unfold lab. cbn [fst].
    rewrite <- (between a b _ Hab Hin). exact Hi.
  Qed.

  Lemma label_in i c : label_at start labels i = Some c -> In c labels.
  Proof. unfold label_at. destruct (i <? start); [discriminate|]. apply nth_error_In. Qed.

  Theorem regions_spec :
    exists d, get_regions leq start labels = Ok d /\ NoDup (map fst d) /\
      (forall c, In c (map fst d) <-> In c labels) /\
      (forall c rs, gd_get leq d c = Some rs ->
         StronglySorted (fun p q => snd p <= fst q) rs /\
         forall a b, In (a, b) rs <-> maximal_run start labels c a b).
  Proof.
    rewrite regions_unfold.
    destruct (group_spec (pairs_of start cuts stop) [] pair_lab (NoDup_nil _))
      as (d & H1 & H2 & H3 & H4).
    exists d. split; [exact H1|]. split; [exact H2|]. split.
    - intros c. rewrite H4. split.
      + intros [[]|(v & _ & Hv)]. apply label_in with (1 := Hv).
      + intros Hc. right. apply every_label, Hc.
    - intros c rs Hrs. specialize (H3 c). rewrite Hrs in H3. cbn in H3. subst rs. split.
      + apply filter_sorted, pairs_sorted, cuts_sorted.
      + intros a b. rewrite filter_In, <- region_run. unfold is_lab, lab. cbn [fst].
        destruct (label_at start labels a) as [x|].
        * rewrite leq_spec. split; (intros [HX HY]; split; [exact HX|congruence]).
        * split; (intros [HX HY]; discriminate).
  Qed.
End regions.

Lemma regions_empty {A} (leq : A -> A -> bool) start : get_regions leq start [] = Err IndexError.
Proof. reflexivity. Qed.

(** ** get_outer_boundaries *)
Lemma outer_spec : forall rest ms me f0 l0, ms < me ->
  StronglySorted (fun p q => snd p <= fst q) rest -> (forall r, In r rest -> fst r < snd r) ->
  let '(f, l) := outer_loop rest ms me f0 l0 in
  ((exists r, In r rest /\ snd r = ms /\ f = fst r) \/
   ((forall r, In r rest -> snd r <> ms) /\ f = f0)) /\
  ((exists r, In r rest /\ fst r = me /\ l = snd r) \/
   ((forall r, In r rest -> fst r <> me) /\ l = l0)).
Proof.
  induction rest as [|r rest IH]; intros ms me f0 l0 Hm HS HP; cbn [outer_loop].
  - split; right; (split; [intros ? []|reflexivity]).
  - inversion HS as [|? ? HS' HF]; subst. rewrite Forall_forall in HF.
    assert (HP' : forall q, In q rest -> fst q < snd q) by (intros q Hq; apply HP; now right).
    assert (Hr : fst r < snd r) by (apply HP; now left).
    destruct (Z.eqb_spec (fst r) me) as [E1|N1].
    + split; [|left; exists r; split; [now left|split; [exact E1|reflexivity]]].
      right. split.
      * intros q [<-|Hq]; [lia|]. specialize (HF _ Hq). specialize (HP' _ Hq). lia.
      * destruct (Z.eqb_spec (snd r) ms); [lia|reflexivity].
    + specialize (IH ms me (if snd r =? ms then fst r else f0) l0 Hm HS' HP').
      destruct (outer_loop rest ms me (if snd r =? ms then fst r else f0) l0) as [f l].
      destruct IH as [IHf IHl]. split.
      * destruct (Z.eqb_spec (snd r) ms) as [E2|N2].
        -- left. exists r. split; [now left|]. split; [exact E2|].
           destruct IHf as [(q & Hq & Eq & _)|[_ ->]]; [|reflexivity].
           specialize (HF _ Hq). specialize (HP' _ Hq). lia.
        -- destruct IHf as [(q & Hq & Eq & Ef)|[Hn ->]].
           ++ left. exists q. split; [now right|]. split; assumption.
           ++ right. split; [|reflexivity]. intros q [<-|Hq]; [exact N2|apply Hn, Hq].
      * destruct IHl as [(q & Hq & Eq & El)|[Hn ->]].
        -- left. exists q. split; [now right|]. split; assumption.
        -- right. split; [|reflexivity]. intros q [<-|Hq]; [exact N1|apply Hn, Hq].
Qed.

Lemma sorted_last : forall (init : list (Z * Z)) x,
  StronglySorted (fun p q => snd p <= fst q) (init ++ [x]) ->
  (forall r, In r (init ++ [x]) -> fst r < snd r) ->
  forall v, In v (init ++ [x]) -> snd v <= snd x.
Proof.
  induction init as [|y init IH]; intros x HS HP v Hv; cbn [app] in *.
  - destruct Hv as [<-|[]]. lia.
  - inversion HS as [|? ? HS' HF]; subst. rewrite Forall_forall in HF.
    destruct Hv as [<-|Hv].
    + assert (Hx : In x (init ++ [x])) by (apply in_or_app; right; now left).
      specialize (HF _ Hx). specialize (HP x (or_intror Hx)). lia.
    + apply IH; [exact HS'| |exact Hv]. intros r Hr. apply HP. now right.
Qed.

Lemma pairs_cover : forall l x z i, StronglySorted Z.lt (x :: l ++ [z]) -> x <= i < z ->
  exists a b, In (a, b) (pairs_of x l z) /\ a <= i < b.
Proof.
  induction l as [|y l IH]; intros x z i HS Hi'.
  - exists x, z. split; [now left|exact Hi'].
  - rewrite pairs_cons. destruct (Z.lt_ge_cases i y).
    + exists x, y. split; [now left|lia].
    + inversion HS; subst. destruct (IH y z i) as (a & b & HA & HB); [assumption|lia|].
      exists a, b. split; [now right|exact HB].
Qed.

Section outer.
  Context {A : Type} (leq : A -> A -> bool).
  Hypothesis leq_spec : forall x y, leq x y = true <-> x = y.

  Lemma py_get_head {B} (x : B) l : py_get (x :: l) 0 = Ok x.
  Proof. reflexivity. Qed.

  Lemma py_get_last {B} (l : list B) x : py_get (l ++ [x]) (-1) = Ok x.
  Proof.
    unfold py_get, py_index. replace (-1 <? 0) with true by reflexivity.
    rewrite app_length. cbn [length].
    destruct (Z.leb_spec 0 (-1 + Z.of_nat (length l + 1))); [|lia].
    destruct (Z.ltb_spec (-1 + Z.of_nat (length l + 1)) (Z.of_nat (length l + 1))); [|lia].
    cbn [andb bind]. replace (Z.to_nat (-1 + Z.of_nat (length l + 1))) with (length l) by lia.
    rewrite nth_error_app2 by lia. now rewrite Nat.sub_diag.
  Qed.

  (** a run that ends (starts) at a given point *)
  Lemma run_left start (labels : list A) c : forall p, label_at start labels (p - 1) = Some c ->
    label_at start labels p <> Some c -> exists a, maximal_run start labels c a p.
  Proof.
    assert (HG : forall n p b, Z.of_nat n = p - start -> p < b ->
              (forall i, p <= i < b -> label_at start labels i = Some c) ->
              label_at start labels b <> Some c -> exists a, maximal_run start labels c a b).
    { induction n as [|n IH]; intros p b En Hpb Hall Hb.
      - exists p. split; [lia|]. split; [exact Hall|]. split; [|exact Hb].
        unfold label_at. rewrite (proj2 (Z.ltb_lt _ _)) by lia. discriminate.
      - destruct (label_at start labels (p - 1)) as [x|] eqn:E.
        + destruct (leq x c) eqn:Ex.
          * apply leq_spec in Ex as ->. apply (IH (p - 1)); [lia|lia| |exact Hb].
            intros i Hi. destruct (Z.eq_dec i (p - 1)) as [->|]; [exact E|apply Hall; lia].
          * exists p. split; [lia|]. split; [exact Hall|]. split; [|exact Hb].
            rewrite E. intros [= ->]. rewrite (proj2 (leq_spec c c) eq_refl) in Ex. discriminate.
        + exists p. split; [lia|]. split; [exact Hall|]. split; [|exact Hb]. rewrite E. discriminate. }
    intros p H1 H2. assert (Hp : start <= p - 1).
    { assert (label_at start labels (p - 1) <> None) by congruence. apply label_some in H. lia. }
    apply (HG (Z.to_nat (p - 1 - start)) (p - 1)); [lia|lia| |exact H2].
    intros i Hi. now replace i with (p - 1) by lia.
  Qed.

  Lemma run_right start (labels : list A) c : forall p, label_at start labels p = Some c ->
    label_at start labels (p - 1) <> Some c -> exists b, maximal_run start labels c p b.
  Proof.
    assert (HG : forall n a p, Z.of_nat n = start + Z.of_nat (length labels) - p -> a < p ->
              (forall i, a <= i < p -> label_at start labels i = Some c) ->
              label_at start labels (a - 1) <> Some c -> exists b, maximal_run start labels c a b).
    { induction n as [|n IH]; intros a p En Hap Hall Ha.
      - exists p. split; [lia|]. split; [exact Hall|]. split; [exact Ha|].
        intros E. assert (label_at start labels p <> None) by congruence.
        apply label_some in H. lia.
      - destruct (label_at start labels p) as [x|] eqn:E.
        + destruct (leq x c) eqn:Ex.
          * apply leq_spec in Ex as ->. apply (IH a (p + 1)); [lia|lia| |exact Ha].
            intros i Hi. destruct (Z.eq_dec i p) as [->|]; [exact E|apply Hall; lia].
          * exists p. split; [lia|]. split; [exact Hall|]. split; [exact Ha|].
            rewrite E. intros [= ->]. rewrite (proj2 (leq_spec c c) eq_refl) in Ex. discriminate.
        + exists p. split; [lia|]. split; [exact Hall|]. split; [exact Ha|]. rewrite E. discriminate. }
    intros p H1 H2. assert (Hp : p < start + Z.of_nat (length labels)).
    { assert (label_at start labels p <> None) by congruence. apply label_some in H. lia. }
    apply (HG (Z.to_nat (start + Z.of_nat (length labels) - (p + 1))) p (p + 1)); [lia|lia| |exact H2].
    intros i Hi. now replace i with p by lia.
  Qed.

  Theorem outer_boundaries start (labels : list A) cls rest d :
    get_regions leq start labels = Ok d -> In cls labels -> In rest labels ->
    exists f l ms me, get_outer_boundaries leq d cls rest = Ok (f, l) /\
      label_at start labels ms = Some cls /\ label_at start labels (me - 1) = Some cls /\
      (forall i, label_at start labels i = Some cls -> ms <= i < me) /\
      (maximal_run start labels rest f ms \/
       label_at start labels (ms - 1) <> Some rest /\ f = ms) /\
      (maximal_run start labels rest me l \/
       label_at start labels me <> Some rest /\ l = me).
  Proof.
    intros Hd Hc Hr.
    assert (Hne : labels <> []) by (intros ->; destruct Hc).
    destruct (regions_spec leq leq_spec start labels Hne) as (d' & E & _ & Hk & Hs).
    assert (d' = d) by congruence. subst d'. clear E.
    apply Hk in Hc as Hc'. apply (gd_get_keys leq leq_spec) in Hc' as [mine Em].
    apply Hk in Hr as Hr'. apply (gd_get_keys leq leq_spec) in Hr' as [rs Er].
    destruct (Hs _ _ Em) as [HSm HIm]. destruct (Hs _ _ Er) as [HSr HIr].
    assert (Hin : exists a b, maximal_run start labels cls a b).
    { apply In_nth_error in Hc as [k Hk0].
      assert (Hi : label_at start labels (start + Z.of_nat k) = Some cls).
      { unfold label_at. destruct (Z.ltb_spec (start + Z.of_nat k) start); [lia|].
        now replace (Z.to_nat (start + Z.of_nat k - start)) with k by lia. }
      destruct (every_label leq leq_spec start labels Hne cls) as ([a b] & Hab & Hl).
      - eapply nth_error_In, Hk0.
      - exists a, b. apply (region_run leq leq_spec start labels Hne). split; [exact Hab|exact Hl]. }
    destruct Hin as (a0 & b0 & Hab0). apply HIm in Hab0.
    destruct mine as [|[ms0 e0] mine']; [destruct Hab0|].
    destruct (exists_last (l := (ms0, e0) :: mine')) as (init & [s1 me] & El); [discriminate|].
    unfold get_outer_boundaries, gd_lookup. rewrite Em. cbn [bind]. rewrite py_get_head. cbn [bind].
    rewrite El, py_get_last. cbn [bind]. rewrite Er. cbn [bind fst snd].
    assert (Hlo : forall a b, In (a, b) ((ms0, e0) :: mine') -> ms0 <= a).
    { inversion HSm as [|? ? _ HF]; subst. rewrite Forall_forall in HF.
      intros a b [E|Hin]; [injection E; lia|]. specialize (HF _ Hin). cbn in HF.
      assert (ms0 < e0) by (apply (HIm ms0 e0); now left). lia. }
    assert (Hpos : forall r, In r ((ms0, e0) :: mine') -> fst r < snd r).
    { intros [a b] Hab. apply HIm in Hab. apply Hab. }
    assert (Hposr : forall r, In r rs -> fst r < snd r).
    { intros [a b] Hab. apply HIr in Hab. apply Hab. }
    assert (Hhi : forall v, In v ((ms0, e0) :: mine') -> snd v <= me).
    { rewrite El in *. apply (sorted_last init (s1, me)); assumption. }
    assert (Hfirst : maximal_run start labels cls ms0 e0) by (apply HIm; now left).
    assert (Hlast : maximal_run start labels cls s1 me).
    { apply HIm. rewrite El. apply in_or_app. right. now left. }
    assert (Hme : ms0 < me).
    { specialize (Hhi (ms0, e0) (or_introl eq_refl)). cbn in Hhi. destruct Hfirst. lia. }
    pose proof (outer_spec rs ms0 me ms0 me Hme HSr Hposr) as HO.
    destruct (outer_loop rs ms0 me ms0 me) as [f l]. destruct HO as [HOf HOl].
    exists f, l, ms0, me. split; [reflexivity|]. split.
    { apply Hfirst. destruct Hfirst. lia. }
    split.
    { apply Hlast. destruct Hlast. lia. }
    split.
    { intros i Hi.
      assert (Hir : start <= i < stop start labels) by (apply label_some; congruence).
      destruct (pairs_cover (cuts leq start labels) start (stop start labels) i) as (a & b & Hab & Hb);
        [apply cuts_sorted; assumption|exact Hir|].
      assert (Hrun : In (a, b) ((ms0, e0) :: mine')).
      { apply HIm. apply (region_run leq leq_spec start labels Hne). split; [exact Hab|].
        now rewrite <- (between leq leq_spec start labels Hne a b i Hab Hb). }
      specialize (Hlo _ _ Hrun). specialize (Hhi _ Hrun). cbn in Hhi. lia. }
    split.
    - destruct HOf as [([a b] & Hab & E1 & E2)|[Hn ->]]; cbn in *.
      + subst. left. apply HIr, Hab.
      + right. split; [|reflexivity]. intros E.
        destruct (run_left start labels rest ms0 E) as [a Ha].
        * intros E2. assert (E3 : label_at start labels ms0 = Some cls) by (apply Hfirst; destruct Hfirst; lia).
          assert (rest = cls) by congruence. subst. destruct Hfirst as (_ & _ & HX & _). contradiction.
        * apply HIr in Ha. apply (Hn _ Ha). reflexivity.
    - destruct HOl as [([a b] & Hab & E1 & E2)|[Hn ->]]; cbn in *.
      + subst. left. apply HIr, Hab.
      + right. split; [|reflexivity]. intros E.
        destruct (run_right start labels rest me E) as [b Hb].
        * intros E2. assert (E3 : label_at start labels (me - 1) = Some cls) by (apply Hlast; destruct Hlast; lia).
          assert (rest = cls) by congruence. subst. destruct Hlast as (_ & _ & _ & HX). contradiction.
        * apply HIr in Hb. apply (Hn _ Hb). reflexivity.
  Qed.
End outer.
