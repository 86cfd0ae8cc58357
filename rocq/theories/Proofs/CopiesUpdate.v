From Coq Require Import Permutation.
From Verif Require Import Spec.CopiesSpec Proofs.CopiesFacts.
Open Scope R_scope.

(** ** update *)
Definition Pupd v := forall fuel h p fp a hist w, rep h p v fp -> NoDup fp -> (length fp <= fuel)%nat ->
  match v_update v a hist w with
  | Ok (v', r) => exists h', o_update fuel h p a hist w = Ok (h', r) /\ rep h' p v' fp /\ length h' = length h /\ (forall q, ~ In q fp -> nth_error h' q = nth_error h q)
  | Err e => o_update fuel h p a hist w = Err e
  end.

Lemma upd_all ms : Forall (fun mx => Pupd (fst mx)) ms -> forall fuel a hist w h q dn td fps, nth_error h q = Some (DModels (dn ++ td)) ->
  map snd td = map snd ms -> reps h (map fst td) (map fst ms) fps -> NoDup (q :: fps) -> (forall k, In k (map fst dn) -> ~ In k fps) -> (length fps <= fuel)%nat ->
  match update_all (fun m => v_update m a hist w) ms with
  | Ok ms' => exists h' td', avg_loop (fun h m => o_update fuel h m a hist w) h q (map fst td) = Ok h' /\ nth_error h' q = Some (DModels (dn ++ td')) /\
      map fst td' = map fst td /\ map snd td' = map snd ms' /\ reps h' (map fst td) (map fst ms') fps /\ length h' = length h /\ (forall x, x <> q -> ~ In x fps -> nth_error h' x = nth_error h x)
  | Err e => avg_loop (fun h m => o_update fuel h m a hist w) h q (map fst td) = Err e
  end.
Proof.
  induction 1 as [|[m x] ms H HF IH]; intros fuel a hist w h q dn td fps Hq E HR ND HD L; destruct td as [|[k y] td]; try discriminate E.
  - cbn. exists h, []. inversion HR; subst. repeat split; auto.
  - injection E as -> E. cbn [map fst] in HR |- *. inversion HR as [|? ? fp1 ? ? fps1 H1 H2]; subst. rewrite app_length in L.
    inversion ND as [|? ? Nq ND']; subst. destruct (nodup_parts _ _ ND') as (D1 & D2 & D3).
    assert (Nk : ~ In k (map fst dn)). { intros HI. apply (HD k HI). apply in_or_app. left. destruct (rep_head _ _ _ _ H1) as [f ->]. now left. }
    assert (AL : avg_loop (fun h m => o_update fuel h m a hist w) h q (k :: map fst td) =
      (do (h, l) <- o_update fuel h k a hist w; do d <- get_models h q; avg_loop (fun h m => o_update fuel h m a hist w) (hput h q (DModels (models_set d k (x + l)))) q (map fst td))).
    { cbn [avg_loop]. unfold get_models at 1. unfold hget. rewrite Hq. cbn [bind]. now rewrite models_get_at by exact Nk. }
    rewrite !AL. clear AL. cbn [update_all].
    pose proof (H fuel h k fp1 a hist w H1 D1 ltac:(lia)) as HU. cbn [fst] in HU. cbv beta. destruct (v_update m a hist w) as [[m' r]|e]; [|cbn [bind]; rewrite HU; reflexivity].
    destruct HU as (h1 & -> & R1 & L1 & F1). cbn [bind]. unfold get_models, hget. assert (Hq1 : nth_error h1 q = nth_error h q) by (apply F1; intros HI; apply Nq; apply in_or_app; now left).
    rewrite Hq1, Hq. cbn [bind]. rewrite models_set_at by exact Nk.
    set (h2 := hput h1 q (DModels (dn ++ (k, x + r) :: td))).
    assert (F2 : forall z, z <> q -> nth_error h2 z = nth_error h1 z) by (intros z Hz; now apply set_other).
    assert (Q2 : nth_error h2 q = Some (DModels ((dn ++ [(k, x + r)]) ++ td))) by (rewrite <- app_assoc; unfold h2, hput; eapply set_same; rewrite Hq1; exact Hq).
    assert (R2 : reps h2 (map fst td) (map fst ms) fps1).
    { apply (proj2 (rep_frame h)) with (1 := H2). intros z Hz. rewrite F2 by (intros ->; apply Nq; apply in_or_app; now right). apply F1. intros HI. exact (D3 z HI Hz). }
    specialize (IH fuel a hist w h2 q (dn ++ [(k, x + r)]) td fps1 Q2 E R2). destruct (update_all (fun m0 => v_update m0 a hist w) ms) as [ms'|e]; cbn [bind].
    + destruct IH as (h' & td' & E1 & Q3 & K3 & V3 & R3 & L3 & F3).
      * constructor; [intros HI; apply Nq; apply in_or_app; now right|exact D2].
      * intros z Hz HI. rewrite map_app in Hz. apply in_app_or in Hz as [Hz|[<-|[]]]; [apply (HD z Hz); apply in_or_app; now right|]. cbn in HI. apply (D3 k); [|exact HI]. destruct (rep_head _ _ _ _ H1) as [f ->]. now left.
      * lia.
      * exists h', ((k, x + r) :: td'). rewrite E1. split; [reflexivity|]. split; [now rewrite Q3, <- app_assoc|]. split; [cbn; now rewrite K3|]. split; [cbn; now rewrite V3|].
        split; [cbn; constructor; [|exact R3]|].
        -- apply (proj1 (rep_frame h1)) with (1 := R1). intros z Hz. rewrite F3; [apply F2|..]; try (intros ->; apply Nq; apply in_or_app; now left). intros HI. exact (D3 z Hz HI).
        -- split; [rewrite L3; unfold h2, hput; now rewrite set_len|]. intros z Hz HI. rewrite F3; [|exact Hz|intros HJ; apply HI; apply in_or_app; now right]. rewrite F2 by exact Hz. apply F1. intros HJ. apply HI. apply in_or_app. now left.
    + apply IH.
      * constructor; [intros HI; apply Nq; apply in_or_app; now right|exact D2].
      * intros z Hz HI. rewrite map_app in Hz. apply in_app_or in Hz as [Hz|[<-|[]]]; [apply (HD z Hz); apply in_or_app; now right|]. cbn in HI. apply (D3 k); [|exact HI]. destruct (rep_head _ _ _ _ H1) as [f ->]. now left.
      * lia.
Qed.

Theorem update_ok : forall v, Pupd v.
Proof.
  apply val_rect'; red.
  - intros s fuel h p fp a hist w H ND L. inversion H; subst. destruct fuel; [cbn in L; lia|]. cbn [o_update v_update]. at_. unfold o_kt_logp, get_counts, kt_update, kt_log_predict. at_. cbn [kt_counts kt_sum].
    destruct (dict_lookup d a) as [c|e]; [|reflexivity]. cbn [bind]. destruct (py_div c s0) as [x|e]; [|reflexivity]. cbn [bind]. destruct (py_log x) as [r|e]; [|reflexivity]. cbn [bind].
    assert (N : p <> q) by (intros ->; inversion ND as [|? ? N ?]; apply N; now left).
    eexists. split; [reflexivity|]. split; [constructor|split].
    + eapply set_same. unfold hput. rewrite set_other by exact N. eassumption.
    + unfold hput. rewrite set_other by congruence. eapply set_same. eassumption.
    + unfold hput. now rewrite !set_len.
    + intros z Hz. unfold hput. rewrite !set_other; [reflexivity|..]; intros ->; apply Hz; cbn; auto.
  - intros s fuel h p fp a hist w H ND L. inversion H; subst. destruct fuel; [cbn in L; lia|]. cbn [o_update v_update]. at_. unfold o_ktb_logp, get_list, ktb_update, ktb_log_predict. at_.
    destruct (py_get s a) as [c|e]; [|reflexivity]. cbn [bind]. destruct (py_get s 0) as [c0|e]; [|reflexivity]. cbn [bind]. destruct (py_get s 1) as [c1|e]; [|reflexivity]. cbn [bind].
    destruct (py_div c (c0 + c1)) as [x|e]; [|reflexivity]. cbn [bind]. destruct (py_log x) as [r|e]; [|reflexivity]. cbn [bind]. destruct (py_set s a (c + w)) as [s'|e]; [|reflexivity]. cbn [bind].
    assert (N : p <> q) by (intros ->; inversion ND as [|? ? N ?]; apply N; now left).
    eexists. split; [reflexivity|]. split; [constructor 2|split].
    + unfold hput. rewrite set_other by exact N. eassumption.
    + eapply set_same. eassumption.
    + unfold hput. now rewrite !set_len.
    + intros z Hz. unfold hput. rewrite !set_other; [reflexivity|..]; intros ->; apply Hz; cbn; auto.
  - intros s fuel h p fp a hist w H ND L. inversion H; subst. destruct fuel; [cbn in L; lia|]. cbn [o_update v_update]. at_. unfold o_sad_logp, get_counts, sad_update, sad_log_predict, sad_beta. at_. cbn [sad_counts sad_sum sad_n].
    destruct (if Rlt_dec 0 s0 then _ else _) as [beta|e]; [|reflexivity]. cbn [bind].
    set (X := match dict_get d a with Some c => do q0 <- py_div c (s0 + beta); py_log q0 | None => _ end). destruct X as [r|e]; [|reflexivity]. cbn [bind].
    assert (N : p <> q) by (intros ->; inversion ND as [|? ? N ?]; apply N; now left).
    eexists. split; [reflexivity|]. split; [constructor|split].
    + eapply set_same. unfold hput. rewrite set_other by exact N. eassumption.
    + unfold hput. rewrite set_other by congruence. eapply set_same. eassumption.
    + unfold hput. now rewrite !set_len.
    + intros z Hz. unfold hput. rewrite !set_other; [reflexivity|..]; intros ->; apply Hz; cbn; auto.
  - intros fuel h p fp a hist w H ND L. inversion H; subst. destruct fuel; [cbn in L; lia|]. cbn [o_update v_update]. at_. exists h. repeat split; auto.
  - intros ms lp HF fuel h p fp a hist w H ND L. inversion H; subst. destruct fuel; [cbn in L; lia|]. cbn in L.
    assert (AL : o_update (S fuel) h p a hist w = (do h1 <- avg_loop (fun h m => o_update fuel h m a hist w) h q (map fst d); do d <- get_models h1 q; do l <- logsumexp (map snd d); Ok (hput h1 p (OAvg q l), l - lp))).
    { cbn [o_update]. at_. unfold get_models at 1. at_. reflexivity. }
    rewrite !AL. clear AL. cbn [v_update].
    inversion ND as [|? ? Np ND1]; subst. match goal with HR : reps h _ _ ?f |- _ => pose proof (upd_all ms HF fuel a hist w h q [] d f ltac:(assumption) ltac:(assumption) HR ND1 ltac:(intros k []) ltac:(lia)) as HU end.
    destruct (update_all _ ms) as [ms'|e]; [|cbn [bind]; rewrite HU; reflexivity]. destruct HU as (h1 & td' & -> & Q1 & K1 & V1 & R1 & L1 & F1). cbn [bind app] in *. unfold get_models, hget. rewrite Q1. cbn [bind]. rewrite V1.
    destruct (logsumexp (map snd ms')) as [l|e]; [|reflexivity]. cbn [bind]. assert (N : p <> q) by (intros ->; apply Np; now left).
    assert (P1 : nth_error h1 p = nth_error h p) by (apply F1; [exact N|]; intros HI; apply Np; now right).
    eexists. split; [reflexivity|]. split; [apply rep_avg with td'|split].
    + eapply set_same. rewrite P1. eassumption.
    + unfold hput. rewrite set_other by congruence. exact Q1.
    + exact V1.
    + rewrite K1. apply (proj2 (rep_frame h1)) with (1 := R1). intros z Hz. apply set_other. intros ->. apply Np. now right.
    + unfold hput. now rewrite set_len.
    + intros z Hz. unfold hput. rewrite set_other by (intros ->; apply Hz; now left). apply F1; [intros ->; apply Hz; right; now left|intros HI; apply Hz; right; now right].
  - intros ms HF fuel h p fp a hist w H ND L. inversion H; subst. destruct fuel; [cbn in L; lia|]. cbn [o_update v_update]. at_. unfold get_factors. at_. cbn in L.
    match goal with HR : reps h l ms ?f |- _ => pose proof (factor_turn l ms h f hist HR) as T end. destruct (turn ms hist) as [i|e]; [|cbn [bind]; rewrite T; reflexivity].
    destruct T as (m & v & fp1 & ms1 & ms2 & l1 & l2 & f1 & f2 & E1 & -> & <- & -> & E2 & R1 & R2 & R3). rewrite E1. cbn [bind]. rewrite update_at_app.
    inversion ND as [|? ? Np ND1]; subst. inversion ND1 as [|? ? Nq ND2]; subst. destruct (nodup_parts _ _ ND2) as (D1 & D2 & D3). destruct (nodup_parts _ _ D2) as (D4 & D5 & D6).
    rewrite !app_length in L. pose proof (in_elt _ _ _ _ HF fuel h m fp1 a hist 1 R2 D4 ltac:(lia)) as HU.
    destruct (v_update v a hist 1) as [[v' r]|e]; [|cbn [bind]; rewrite HU; reflexivity]. destruct HU as (h1 & -> & U1 & L1 & F1). cbn [bind].
    assert (Keep : forall z, ~ In z fp1 -> nth_error h1 z = nth_error h z) by exact F1.
    exists h1. split; [reflexivity|]. split; [apply rep_fac with (l1 ++ m :: l2)|split].
    + rewrite Keep; [eassumption|]. intros HI. apply Np. right. apply in_or_app. right. apply in_or_app. now left.
    + rewrite Keep; [eassumption|]. intros HI. apply Nq. apply in_or_app. right. apply in_or_app. now left.
    + apply reps_app; [|constructor; [exact U1|]].
      * apply (proj2 (rep_frame h)) with (1 := R1). intros z Hz. apply Keep. intros HI. apply (D3 z Hz). apply in_or_app. now left.
      * apply (proj2 (rep_frame h)) with (1 := R3). intros z Hz. apply Keep. intros HI. exact (D6 z HI Hz).
    + exact L1.
    + intros z Hz. apply F1. intros HI. apply Hz. right. right. apply in_or_app. right. apply in_or_app. now left.
Qed.

(** ** copy *)
Definition new_at (h h' : heap) (fp : list ptr) : Prop := (exists ext, h' = h ++ ext) /\ NoDup fp /\ forall q, In q fp -> (length h <= q)%nat.
Definition Pcopy v := forall fuel h p fp, rep h p v fp -> (length fp <= fuel)%nat ->
  if has_copy v then exists h' p' fp', o_copy fuel h p = Ok (h', p') /\ rep h' p' v fp' /\ new_at h h' fp' else o_copy fuel h p = Err NotImplementedError.

Lemma ext_at (h ext : heap) q c : nth_error h q = Some c -> nth_error (h ++ ext) q = Some c.
Proof. intros H. rewrite nth_error_app1; [exact H|]. apply nth_error_Some. congruence. Qed.
Lemma ext_end (h : heap) c : nth_error (h ++ [c]) (length h) = Some c.
Proof. rewrite nth_error_app2 by lia. now rewrite Nat.sub_diag. Qed.
Lemma reps_ext h ext ps vs fp : reps h ps vs fp -> reps (h ++ ext) ps vs fp.
Proof. intros H. apply (proj2 (rep_frame h)) with (1 := H). intros q Hq. apply nth_error_app1. exact (proj2 (rep_bound h) _ _ _ H q Hq). Qed.
Lemma rep_ext h ext p v fp : rep h p v fp -> rep (h ++ ext) p v fp.
Proof. intros H. apply (proj1 (rep_frame h)) with (1 := H). intros q Hq. apply nth_error_app1. exact (proj1 (rep_bound h) _ _ _ H q Hq). Qed.
Lemma nodup_join {A} (l1 l2 : list A) : NoDup l1 -> NoDup l2 -> (forall x, In x l1 -> ~ In x l2) -> NoDup (l1 ++ l2).
Proof. induction 1 as [|x l1 N D IH]; intros D2 H; [exact D2|]. cbn. constructor; [|apply IH; [exact D2|intros z Hz; apply H; now right]]. intros HI. apply in_app_or in HI as [HI|HI]; [contradiction|exact (H x (or_introl eq_refl) HI)]. Qed.

Lemma copies_ok ms : Forall Pcopy ms -> forall fuel h ps fp, reps h ps ms fp -> (length fp <= fuel)%nat ->
  if forallb has_copy ms then exists h' ps' fp', copies (o_copy fuel) h ps = Ok (h', ps') /\ reps h' ps' ms fp' /\ new_at h h' fp' /\ length ps' = length ms else copies (o_copy fuel) h ps = Err NotImplementedError.
Proof.
  induction 1 as [|m ms H HF IH]; intros fuel h ps fp HR L; inversion HR as [|p ? fp1 ps1 ? fps H1 H2]; subst.
  - cbn. exists h, [], []. repeat split; try constructor; [exists []; now rewrite app_nil_r|intros q []].
  - rewrite app_length in L. cbn [forallb copies]. pose proof (H fuel h p fp1 H1 ltac:(lia)) as HC. destruct (has_copy m); cbn [andb]; [|cbn [bind]; rewrite HC; reflexivity].
    destruct HC as (h1 & p' & f1 & -> & R1 & (ext & ->) & D1 & N1). cbn [bind]. pose proof (IH fuel (h ++ ext) ps1 fps (reps_ext _ _ _ _ _ H2) ltac:(lia)) as HC. destruct (forallb has_copy ms); [|cbn [bind]; rewrite HC; reflexivity].
    destruct HC as (h2 & ps' & f2 & -> & R2 & ((ext2 & ->) & D2 & N2) & L2). cbn [bind]. exists ((h ++ ext) ++ ext2), (p' :: ps'), (f1 ++ f2). split; [reflexivity|]. split; [constructor; [now apply rep_ext|exact R2]|]. split; [|cbn; now rewrite L2].
    split; [exists (ext ++ ext2); now rewrite app_assoc|]. split.
    + apply nodup_join; [exact D1|exact D2|]. intros z H3 H4. apply N2 in H4. pose proof (proj1 (rep_bound _) _ _ _ R1 z H3). lia.
    + intros z Hz. apply in_app_or in Hz as [Hz|Hz]; [auto|]. apply N2 in Hz. rewrite app_length in Hz. lia.
Qed.
Lemma new_two h ext c d fp : NoDup fp -> (forall q, In q fp -> (length h <= q)%nat /\ (q < length (h ++ ext))%nat) -> new_at h ((h ++ ext) ++ [c] ++ [d]) (length (h ++ ext) + 1 :: length (h ++ ext) :: fp)%nat.
Proof.
  intros D N. split; [exists (ext ++ [c] ++ [d]); now rewrite <- app_assoc|]. split.
  - constructor; [intros [E|HI]; [lia|apply N in HI; lia]|]. constructor; [intros HI; apply N in HI; lia|exact D].
  - rewrite app_length. intros q [<-|[<-|HI]]; [lia|lia|]. now apply N.
Qed.

Lemma new_pair (h : heap) c d : new_at h ((h ++ [c]) ++ [d]) [length (h ++ [c]); length h].
Proof.
  split; [exists [c; d]; now rewrite <- app_assoc|]. rewrite app_length. cbn [length]. split; [constructor; [intros [E|[]]; lia|constructor; [intros []|constructor]]|].
  intros q [<-|[<-|[]]]; lia.
Qed.

Lemma pair_fst {A B} (l : list A) (m : list B) : length l = length m -> map fst (combine l m) = l.
Proof. revert m. induction l as [|x l IH]; intros [|y m] H; try discriminate; [reflexivity|]. cbn. f_equal. apply IH. now injection H. Qed.
Lemma pair_snd {A B} (l : list A) (m : list B) : length l = length m -> map snd (combine l m) = m.
Proof. revert m. induction l as [|x l IH]; intros [|y m] H; try discriminate; [reflexivity|]. cbn. f_equal. apply IH. now injection H. Qed.

Theorem copy_ok : forall v, Pcopy v.
Proof.
  apply val_rect'; red.
  - intros s fuel h p fp H L. inversion H; subst. destruct fuel; [cbn in L; lia|]. cbn [o_copy has_copy]. at_. unfold get_counts. at_. unfold halloc.
    do 2 eexists. exists [length (h ++ [DCounts d]); length h]. split; [reflexivity|]. split; [constructor; [apply ext_end|apply ext_at, ext_end]|].
    apply new_pair.
  - intros s fuel h p fp H L. inversion H; subst. destruct fuel; [cbn in L; lia|]. cbn [o_copy has_copy]. at_. unfold get_list. at_. unfold halloc.
    do 2 eexists. exists [length (h ++ [LCounts s]); length h]. split; [reflexivity|]. split; [constructor; [apply ext_end|apply ext_at, ext_end]|].
    apply new_pair.
  - intros s fuel h p fp H L. inversion H; subst. destruct fuel; [cbn in L; lia|]. cbn [o_copy has_copy]. at_. unfold get_counts. at_. unfold halloc.
    do 2 eexists. exists [length (h ++ [DCounts d]); length h]. split; [reflexivity|]. split; [constructor; [apply ext_end|apply ext_at, ext_end]|].
    apply new_pair.
  - intros fuel h p fp H L. inversion H; subst. destruct fuel; [cbn in L; lia|]. cbn [o_copy has_copy]. at_. reflexivity.
  - intros ms lp HF fuel h p fp H L. inversion H; subst. destruct fuel; [cbn in L; lia|]. cbn [o_copy has_copy]. at_. unfold get_models. at_. cbn in L.
    assert (HF' : Forall Pcopy (map fst ms)) by (clear - HF; induction HF; constructor; auto).
    match goal with HR : reps h _ _ ?f |- _ => pose proof (copies_ok (map fst ms) HF' fuel h (map fst d) f HR ltac:(lia)) as HC end.
    replace (forallb (fun mx => has_copy (fst mx)) ms) with (forallb has_copy (map fst ms)) by (clear; induction ms as [|[] ms IH]; cbn; [reflexivity|now rewrite IH]).
    destruct (forallb has_copy (map fst ms)); [|cbn [bind]; rewrite HC; reflexivity]. destruct HC as (h1 & ps & f1 & -> & R1 & ((ext & ->) & D1 & N1) & L1). cbn [bind]. unfold halloc.
    assert (LL : length ps = length (map snd d)) by (rewrite L1, map_length; match goal with E : map snd d = map snd ms |- _ => rewrite E end; now rewrite map_length).
    do 2 eexists. exists (length ((h ++ ext) ++ [DModels (combine ps (map snd d))]) :: length (h ++ ext) :: f1). split; [reflexivity|]. split.
    + apply rep_avg with (combine ps (map snd d)); [apply ext_end|apply ext_at, ext_end|rewrite pair_snd by exact LL; assumption|]. rewrite pair_fst by exact LL. do 2 apply reps_ext. exact R1.
    + rewrite <- (app_assoc (h ++ ext)), (app_length (h ++ ext)). apply new_two; [exact D1|]. intros z Hz. split; [auto|]. exact (proj2 (rep_bound _) _ _ _ R1 z Hz).
  - intros ms HF fuel h p fp H L. inversion H; subst. destruct fuel; [cbn in L; lia|]. cbn [o_copy has_copy]. at_. unfold get_factors. at_. cbn in L.
    match goal with HR : reps h _ _ ?f |- _ => pose proof (copies_ok ms HF fuel h l f HR ltac:(lia)) as HC end.
    destruct (forallb has_copy ms); [|cbn [bind]; rewrite HC; reflexivity]. destruct HC as (h1 & ps & f1 & -> & R1 & ((ext & ->) & D1 & N1) & L1). cbn [bind]. unfold halloc.
    do 2 eexists. exists (length ((h ++ ext) ++ [LModels ps]) :: length (h ++ ext) :: f1). split; [reflexivity|]. split.
    + apply rep_fac with ps; [apply ext_end|apply ext_at, ext_end|]. do 2 apply reps_ext. exact R1.
    + rewrite <- (app_assoc (h ++ ext)), (app_length (h ++ ext)). apply new_two; [exact D1|]. intros z Hz. split; [auto|]. exact (proj2 (rep_bound _) _ _ _ R1 z Hz).
Qed.
