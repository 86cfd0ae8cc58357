(** FMN with rounding: the models kept, and the averages of them. *)
From Coq Require Import Lra Lia.
From Verif Require Import Spec.FloatsFMNSpec.
From Verif Require Import Proofs.RealFacts Proofs.PyFacts Proofs.KTRedundancy Proofs.AveragerFacts Proofs.PTWFacts Proofs.FMNFacts Proofs.FloatsFacts Proofs.FloatsAvgFacts Proofs.FloatsAvgTop.
Open Scope R_scope.

Lemma exact_fmn {S T} (M : model S) (C : store_class (S := S) T) m : FFMN_model exact M C m = FMN_model M C m.
Proof.
  reflexivity.
Qed.

(** ** The bases on the right spine *)
Fixpoint spine {S} (P : S -> Prop) (n : pnode S) : Prop :=
  let '(PNode base _ _ _ _ _ r) := n in P base /\ match r with None => True | Some r => spine P r end.

Lemma spine_update {S} F (M : model S) m (P Q : S -> Prop) fresh a h w : P fresh ->
  (forall b b' l, P b -> m_update M b a h w = Ok (b', l) -> Q b') ->
  forall n n', spine P n -> fpnode_update F M m fresh n a h w = Ok n' -> spine Q n'.
Proof.
  intros Hf Hs n. induction n as [base height count blp llp lp rch IH] using pnode_rec_ind.
  intros n' [Hb Hr] H. cbn [fpnode_update] in H. destruct (partition_is_complete _).
  - destruct (m_update M base a h w) as [[b' l]|e] eqn:E; [cbn [bind] in H|discriminate].
    destruct (m_update M fresh a h w) as [[rb' rl]|e] eqn:E2; [cbn [bind] in H|discriminate].
    injection H as <-. cbn [spine]. split; [exact (Hs _ _ _ Hb E)|]. split; [exact (Hs _ _ _ Hf E2)|exact I].
  - destruct (m_update M base a h w) as [[b' l]|e] eqn:E; [cbn [bind] in H|discriminate].
    destruct rch as [r|].
    + destruct (fpnode_update F M m fresh r a h w) as [r'|e] eqn:E2; [cbn [bind] in H|discriminate].
      injection H as <-. cbn [spine]. split; [exact (Hs _ _ _ Hb E)|]. apply (IH r' Hr eq_refl).
    + injection H as <-. cbn [spine]. split; [exact (Hs _ _ _ Hb E)|exact I].
Qed.

Lemma spine_scores {S} F (P : S -> Prop) : forall n left sc b, spine P n -> In (sc, b) (fpnode_scores F n left) -> P b.
Proof.
  intros n. induction n as [base height count blp llp lp rch IH] using pnode_rec_ind.
  intros left sc b [Hb Hr] [H|H]; [injection H as _ <-; exact Hb|]. destruct rch as [r|]; [|destruct H].
  eapply IH; eassumption.
Qed.

Lemma spine_map {S} F (P : S -> Prop) (s : ptw (S := S)) : spine P (pt_tree s) -> P (fptw_map F s).
Proof.
  intros H. unfold fptw_map. destruct (fpnode_scores F (pt_tree s) 0) as [|x l] eqn:E.
  - destruct (pt_tree s); discriminate.
  - pose proof (max_score_in l x) as Hin. rewrite <- E in Hin. destruct (max_score x l) as [sc b]. cbn [snd].
    eapply spine_scores; eassumption.
Qed.

(** ** The members of an average *)
Definition members {S} (G : S -> Prop) (a : avg S) : Prop :=
  av_models a <> [] /\ forall kv, In kv (av_models a) -> G (fst (snd kv)).

Lemma members_update {S} F (M : model S) (G G' : S -> Prop) a h w :
  (forall x x' l, G x -> m_update M x a h w = Ok (x', l) -> G' x') ->
  forall s s' l, members G s -> m_update (FAVG_model F M) s a h w = Ok (s', l) -> members G' s'.
Proof.
  intros Hs s s' l [Hne HG]. cbn [FAVG_model m_update]. unfold favg_update.
  destruct (mapM _ (av_models s)) as [ms|e] eqn:E; [cbn [bind]|discriminate].
  destruct (fp_logsumexp F _) as [lp|e]; [cbn [bind]|discriminate]. intros H. injection H as <- <-.
  unfold members. cbn [av_models]. split.
  - intros ->. apply mapM_length in E. destruct (av_models s); [congruence|discriminate].
  - clear Hne. revert ms E HG. induction (av_models s) as [|[k [x lp0]] d IH]; cbn [mapM]; intros ms E HG.
    + injection E as <-. intros kv [].
    + destruct (m_update M x a h w) as [[x' lx]|e] eqn:Ex; [cbn [bind] in E|discriminate].
      destruct (mapM _ d) as [d'|e] eqn:Ed; [cbn [bind] in E|discriminate]. injection E as <-.
      intros kv [<-|Hin].
      * cbn [fst snd]. eapply Hs; [|exact Ex]. apply (HG (k, (x, lp0))). left. reflexivity.
      * apply (IH d' eq_refl); [|exact Hin]. intros kv' H'. apply HG. right. exact H'.
Qed.

Lemma members_map {S} (G : S -> Prop) (a : avg S) : members G a -> exists k x, avg_map a = Ok (k, x) /\ G x.
Proof.
  intros [Hne HG]. unfold avg_map. destruct (av_models a) as [|kv d] eqn:E; [congruence|].
  destruct (max_by_spec kv d) as (Hin & _). destruct (max_by kv d) as [k [x lp]]. exists k, x. split; [reflexivity|].
  apply (HG _ Hin).
Qed.

Lemma members_init {S} F (G : S -> Prop) (xs : list S) s : xs <> [] -> Forall G xs ->
  favg_init F (number_from 0 xs) = Ok s -> members G s.
Proof.
  intros Hne HG. unfold favg_init. destruct (fp_div F 1 _) as [q|e]; [cbn [bind]|discriminate].
  destruct (fp_log F q) as [l|e]; [cbn [bind]|discriminate]. intros H. injection H as <-.
  unfold members. cbn [av_models].
  pose proof (fold_dict_set_app (fst (A:=Z) (B:=S)) (fun kv => (snd kv, l)) (number_from 0 xs) []) as F1.
  rewrite F1; [|apply number_from_nodup|intros x _ []]. cbn [app]. split.
  - destruct xs; [congruence|discriminate].
  - intros kv Hin. apply in_map_iff in Hin as ([k x] & <- & Hin). cbn [fst snd]. apply number_from_keys in Hin as (_ & Hin).
    rewrite Forall_forall in HG. apply HG, Hin.
Qed.

(** ** Averages of at most [D] models *)
Section averages.
  Variables (F : floats) (u big : R) (max : nat).
  Hypothesis HF : accurate F u big max.
  Hypothesis Hu : 0 <= u <= / 64.
  Context {S1 S2 : Type} (M1 : model S1) (M2 : model S2) (f1 : S1) (f2 : S2) (A : list Z) (okh : list Z -> Prop)
    (N D : nat) (eps L : R) (bclose : nat -> S1 -> S2 -> Prop).
  Hypothesis HT : steady M1 M2 f1 f2 A okh (2 * N) eps L bclose.
  Hypothesis HL : 0 <= L.
  Hypothesis Heps : 0 <= eps.
  Hypothesis Hmax : (2 * D <= max)%nat.
  Hypothesis Hbig : 2 * avg_size N D L 0 + 4 * (INR D + 1) ^ 2 <= big.
  Hypothesis Hsmall : 2 * avg_drift u N D L 0 eps <= 1.

  Definition okah (a : Z) (h : list Z) : Prop := In a A /\ okh h.
  Definition cl (k : Z) (n : nat) (x : S1) (y : S2) (b : R) : Prop :=
    exists j, (j <= N)%nat /\ bclose (j + n) x y /\ - (INR n * L) <= b <= 0.
  Definition twin (t : nat) (x : S1) (y : S2) : Prop := exists j, (j <= t)%nat /\ bclose j x y.

  Lemma cl_tracks k x y : twin N x y -> tracks M1 M2 x y okah N eps L 0 (cl k).
  Proof.
    intros (j & Hj & Hb). split.
    - exists j. rewrite Nat.add_0_r. split; [exact Hj|]. split; [exact Hb|]. cbn [INR]. lra.
    - intros n x' y' b (j' & _ & _ & H) _. lra.
    - intros n x' y' b a h (j' & Hj' & Hb' & H) Hn [Ha Hh].
      destruct (sd_step _ _ _ _ _ _ _ _ _ _ HT _ x' y' a h Hb' ltac:(lia) Ha Hh) as (x2 & y2 & lx & ly & U1 & U2 & E & Hl & Hb2).
      exists x2, y2, lx, ly. split; [exact U1|]. split; [exact U2|]. split; [exact E|].
      exists j'. split; [exact Hj'|]. split; [rewrite Nat.add_succ_r; exact Hb2|]. rewrite S_INR. lra.
  Qed.

  Lemma twins_follow xs ys : Forall2 (twin N) xs ys -> forall i, follow M1 M2 okah N eps L 0 cl (number_from i xs) (number_from i ys).
  Proof.
    induction 1 as [|x y xs ys H _ IH]; intros i; cbn [number_from]; constructor; [|apply IH].
    cbn [fst snd]. split; [reflexivity|]. apply cl_tracks, H.
  Qed.

  Lemma avg_mono d : (1 <= d <= D)%nat -> avg_size N d L 0 <= avg_size N D L 0 /\
    (INR d + 1) ^ 2 <= (INR D + 1) ^ 2 /\ avg_drift u N d L 0 eps <= avg_drift u N D L 0 eps /\ avg_eps u N d L 0 eps <= avg_eps u N D L 0 eps.
  Proof.
    intros [H1 H2]. apply le_INR in H1, H2. cbn [INR] in H1.
    assert (Hln : ln (INR d) <= ln (INR D)) by (apply ln_le; lra).
    assert (Hs : avg_size N d L 0 <= avg_size N D L 0) by (unfold avg_size; lra).
    assert (Hq : (INR d + 1) ^ 2 <= (INR D + 1) ^ 2) by nra.
    assert (Hus : u * avg_size N d L 0 <= u * avg_size N D L 0) by (apply Rmult_le_compat_l; lra).
    assert (Huq : u * (INR d + 1) ^ 2 <= u * (INR D + 1) ^ 2) by (apply Rmult_le_compat_l; lra).
    assert (Hn : INR N * (eps + u * avg_size N d L 0) <= INR N * (eps + u * avg_size N D L 0)) by (apply Rmult_le_compat_l; [apply pos_INR|lra]).
    assert (Hd : avg_drift u N d L 0 eps <= avg_drift u N D L 0 eps) by (unfold avg_drift; lra).
    repeat split; try assumption. unfold avg_eps. lra.
  Qed.

  (** two averages of twins after [n] updates *)
  Definition aclose (n : nat) (s1 : avg S1) (s2 : avg S2) (b : R) : Prop :=
    exists xs ys, Forall2 (twin N) xs ys /\ (1 <= length xs <= D)%nat /\
      near u M1 M2 okah N eps L 0 cl (number_from 0 xs) n s1 s2 b.

  Lemma few (xs : list S1) : (1 <= length xs <= D)%nat -> let ms := number_from 0 xs in
    ms <> [] /\ NoDup (map fst ms) /\ (2 * length ms <= max)%nat /\
    2 * avg_size N (length ms) L 0 + 4 * (INR (length ms) + 1) ^ 2 <= big /\ 2 * avg_drift u N (length ms) L 0 eps <= 1 /\
    avg_eps u N (length ms) L 0 eps <= avg_eps u N D L 0 eps.
  Proof.
    intros H ms. assert (E : length ms = @length S1 xs) by apply number_from_length. rewrite E.
    destruct (avg_mono _ H) as (H1 & H2 & H3 & H4). split; [intros E0; rewrite E0 in E; cbn in E; lia|].
    split; [apply number_from_nodup|]. split; [lia|]. split; [lra|]. split; [lra|]. exact H4.
  Qed.

  Lemma average_of xs ys : Forall2 (twin N) xs ys -> (1 <= length xs <= D)%nat ->
    exists s1 s2, favg_init F (number_from 0 xs) = Ok s1 /\ avg_init (number_from 0 ys) = Ok s2 /\
      tracks (FAVG_model F M1) (AVG_model M2) s1 s2 okah N (avg_eps u N D L 0 eps) L 0 aclose.
  Proof.
    intros Hxy Hd. destruct (few xs Hd) as (K1 & K2 & K3 & K4 & K5 & K6).
    pose proof (twins_follow xs ys Hxy 0%Z) as HFo.
    destruct (avg_start F u big max HF Hu M1 M2 okah N eps L 0 cl _ _ HFo HL (Rle_refl 0) Heps K1 K2 K3 K4 K5) as (s1 & s2 & I1 & I2 & H0).
    exists s1, s2. split; [exact I1|]. split; [exact I2|]. split.
    - exists xs, ys. auto.
    - intros n x y b (xs' & ys' & Hxy' & Hd' & (G1 & G2 & G3 & -> & _)) Hn.
      destruct (few xs' Hd') as (J1 & J2 & J3 & J4 & J5 & J6).
      exact (sum_size u big max M1 M2 okah N eps L 0 cl _ _ (twins_follow xs' ys' Hxy' 0%Z) J1 J2 J3 J4 J5 n _ _ G2 Hn G1).
    - intros n x y b a h (xs' & ys' & Hxy' & Hd' & H) Hn Ha.
      destruct (few xs' Hd') as (J1 & J2 & J3 & J4 & J5 & J6).
      destruct (avg_step F u big max HF Hu M1 M2 okah N eps L 0 cl _ _ (twins_follow xs' ys' Hxy' 0%Z) HL (Rle_refl 0) Heps J1 J2 J3 J4 J5 n x y b a h H Hn Ha)
        as (x' & y' & l1 & l2 & U1 & U2 & E & H').
      exists x', y', l1, l2. split; [exact U1|]. split; [exact U2|]. split; [lra|]. exists xs', ys'. auto.
  Qed.

  (** a retained model, run over further events *)
  Lemma twin_run evs : forall n x y, bclose n x y -> (n + length evs <= 2 * N)%nat ->
    Forall (ok_event A okh (eq 1)) evs ->
    exists x' y' lx ly, run M1 x evs = Ok (x', lx) /\ run M2 y evs = Ok (y', ly) /\ Rabs (lx - ly) <= INR (length evs) * eps.
  Proof.
    induction evs as [|e evs IH]; intros n x y Hb Hn Hev; cbn [run length] in *.
    - exists x, y, 0, 0. repeat split. rewrite Rminus_0_r, Rabs_R0. cbn [INR]. lra.
    - apply Forall_inv_tail in Hev as Hev'. apply Forall_inv in Hev as (Ha & Hh & Hw). rewrite <- Hw.
      destruct (sd_step _ _ _ _ _ _ _ _ _ _ HT _ x y _ _ Hb ltac:(lia) Ha Hh) as (x2 & y2 & lx & ly & U1 & U2 & E & _ & Hb2).
      rewrite U1, U2. cbn [bind]. destruct (IH _ _ _ Hb2 ltac:(lia) Hev') as (x3 & y3 & lx3 & ly3 & V1 & V2 & E3).
      rewrite V1, V2. cbn [bind]. exists x3, y3, (lx + lx3), (ly + ly3). repeat split. rewrite S_INR.
      apply abs_le in E, E3. apply Rabs_le. lra.
  Qed.
End averages.
