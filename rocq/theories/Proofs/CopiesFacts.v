From Coq Require Import Permutation.
From Verif Require Import Spec.CopiesSpec.
Open Scope R_scope.

(** Induction over values with all they hold. *)
Section ind.
  Variable P : val -> Prop.
  Hypothesis Hkt : forall s, P (VKT s).
  Hypothesis Hktb : forall s, P (VKTB s).
  Hypothesis Hsad : forall s, P (VSAD s).
  Hypothesis Hdumb : P VDumb.
  Hypothesis Havg : forall ms lp, Forall (fun mx => P (fst mx)) ms -> P (VAvg ms lp).
  Hypothesis Hfac : forall ms, Forall P ms -> P (VFac ms).
  Fixpoint val_rect' (v : val) : P v :=
    match v with
    | VKT s => Hkt s | VKTB s => Hktb s | VSAD s => Hsad s | VDumb => Hdumb
    | VAvg ms lp => Havg ms lp ((fix go l : Forall (fun mx => P (fst mx)) l := match l with [] => Forall_nil _ | mx :: l' => Forall_cons mx (match mx return P (fst mx) with (m, x) => val_rect' m end) (go l') end) ms)
    | VFac ms => Hfac ms ((fix go l : Forall P l := match l with [] => Forall_nil _ | m :: l' => Forall_cons m (val_rect' m) (go l') end) ms)
    end.
End ind.

(** The object at [p] and all it holds, at the addresses [fp], are the value. *)
Inductive rep (h : heap) : ptr -> val -> list ptr -> Prop :=
| rep_kt p q d s : nth_error h p = Some (OKT q s) -> nth_error h q = Some (DCounts d) -> rep h p (VKT (KT d s)) [p; q]
| rep_ktb p q l : nth_error h p = Some (OKTB q) -> nth_error h q = Some (LCounts l) -> rep h p (VKTB l) [p; q]
| rep_sad p q n d s : nth_error h p = Some (OSAD n q s) -> nth_error h q = Some (DCounts d) -> rep h p (VSAD (SAD n d s)) [p; q]
| rep_dumb p : nth_error h p = Some ODumb -> rep h p VDumb [p]
| rep_avg p q d ms lp fp : nth_error h p = Some (OAvg q lp) -> nth_error h q = Some (DModels d) -> map snd d = map snd ms -> reps h (map fst d) (map fst ms) fp -> rep h p (VAvg ms lp) (p :: q :: fp)
| rep_fac p q l ms fp : nth_error h p = Some (OFac q) -> nth_error h q = Some (LModels l) -> reps h l ms fp -> rep h p (VFac ms) (p :: q :: fp)
with reps (h : heap) : list ptr -> list val -> list ptr -> Prop :=
| reps_nil : reps h [] [] []
| reps_cons p v fp ps vs fps : rep h p v fp -> reps h ps vs fps -> reps h (p :: ps) (v :: vs) (fp ++ fps).
Scheme rep_mut := Induction for rep Sort Prop with reps_mut := Induction for reps Sort Prop.
Combined Scheme rep_both from rep_mut, reps_mut.

Lemma rep_frame : forall h, (forall p v fp, rep h p v fp -> forall h', (forall q, In q fp -> nth_error h' q = nth_error h q) -> rep h' p v fp) /\
  (forall ps vs fp, reps h ps vs fp -> forall h', (forall q, In q fp -> nth_error h' q = nth_error h q) -> reps h' ps vs fp).
Proof.
  intros h. apply (rep_both h (fun p v fp _ => forall h', (forall q, In q fp -> nth_error h' q = nth_error h q) -> rep h' p v fp)
    (fun ps vs fp _ => forall h', (forall q, In q fp -> nth_error h' q = nth_error h q) -> reps h' ps vs fp)).
  - intros p q d s H1 H2 h' H. constructor; rewrite H; auto; cbn; auto.
  - intros p q l H1 H2 h' H. constructor; rewrite H; auto; cbn; auto.
  - intros p q n d s H1 H2 h' H. constructor; rewrite H; auto; cbn; auto.
  - intros p H1 h' H. constructor. rewrite H; cbn; auto.
  - intros p q d ms lp fp H1 H2 E _ IH h' H. apply rep_avg with d; [rewrite H; cbn; auto|rewrite H; cbn; auto|exact E|]. apply IH. intros x Hx. apply H. cbn; auto.
  - intros p q l ms fp H1 H2 _ IH h' H. apply rep_fac with l; [rewrite H; cbn; auto|rewrite H; cbn; auto|]. apply IH. intros x Hx. apply H. cbn; auto.
  - intros h' _. constructor.
  - intros p v fp ps vs fps _ IH1 _ IH2 h' H. constructor; [apply IH1|apply IH2]; intros q Hq; apply H; apply in_or_app; auto.
Qed.
Lemma rep_head h p v fp : rep h p v fp -> exists fp', fp = p :: fp'.
Proof. intros H. inversion H; subst; eexists; reflexivity. Qed.
Lemma rep_bound : forall h, (forall p v fp, rep h p v fp -> forall q, In q fp -> (q < length h)%nat) /\ (forall ps vs fp, reps h ps vs fp -> forall q, In q fp -> (q < length h)%nat).
Proof.
  intros h. assert (B : forall q c, nth_error h q = Some c -> (q < length h)%nat) by (intros q c H; apply nth_error_Some; congruence).
  apply (rep_both h (fun p v fp _ => forall q, In q fp -> (q < length h)%nat) (fun ps vs fp _ => forall q, In q fp -> (q < length h)%nat)).
  - intros p q d s H1 H2 x [<-|[<-|[]]]; eauto.
  - intros p q l H1 H2 x [<-|[<-|[]]]; eauto.
  - intros p q n d s H1 H2 x [<-|[<-|[]]]; eauto.
  - intros p H1 x [<-|[]]; eauto.
  - intros p q d ms lp fp H1 H2 E _ IH x [<-|[<-|Hx]]; eauto.
  - intros p q l ms fp H1 H2 _ IH x [<-|[<-|Hx]]; eauto.
  - intros q [].
  - intros p v fp ps vs fps _ IH1 _ IH2 q Hq. apply in_app_or in Hq as [Hq|Hq]; auto.
Qed.
Lemma reps_in h ps vs fp : reps h ps vs fp -> forall p, In p ps -> In p fp.
Proof. induction 1 as [|p v fp ps vs fps H HS IH]; intros x Hx; [destruct Hx|]. apply in_or_app. destruct Hx as [<-|Hx]; [|right; auto]. left. destruct (rep_head _ _ _ _ H) as [fp' ->]. now left. Qed.
Lemma reps_app h ps1 vs1 fp1 ps2 vs2 fp2 : reps h ps1 vs1 fp1 -> reps h ps2 vs2 fp2 -> reps h (ps1 ++ ps2) (vs1 ++ vs2) (fp1 ++ fp2).
Proof. induction 1; intros H2; [exact H2|]. cbn. rewrite <- app_assoc. constructor; auto. Qed.

Lemma set_same {A} (l : list A) k x y : nth_error l k = Some y -> nth_error (list_set l k x) k = Some x.
Proof. revert k. induction l as [|z l IH]; intros [|k] H; try discriminate; [reflexivity|]. cbn in *. auto. Qed.
Lemma set_other {A} (l : list A) k x q : q <> k -> nth_error (list_set l k x) q = nth_error l q.
Proof. revert k q. induction l as [|z l IH]; intros [|k] [|q] H; try reflexivity; [now destruct H|]. cbn. apply IH. congruence. Qed.
Lemma set_len {A} (l : list A) k x : length (list_set l k x) = length l.
Proof. revert k. induction l as [|z l IH]; intros [|k]; cbn; auto. Qed.

Lemma nodup_parts {A} (l1 l2 : list A) : NoDup (l1 ++ l2) -> NoDup l1 /\ NoDup l2 /\ forall x, In x l1 -> ~ In x l2.
Proof.
  induction l1 as [|y l1 IH]; cbn; intros H; [split; [constructor|]; split; [exact H|intros x []]|]. inversion H as [|? ? N D]; subst. destruct (IH D) as (H1 & H2 & H3).
  split; [constructor; [intros HI; apply N; apply in_or_app; now left|exact H1]|]. split; [exact H2|]. intros x [<-|Hx]; [intros HI; apply N; apply in_or_app; now right|auto].
Qed.

Lemma models_get_at dn k x td : ~ In k (map fst dn) -> models_get (dn ++ (k, x) :: td) k = Ok x.
Proof. induction dn as [|[j y] dn IH]; cbn; intros N; [now rewrite Nat.eqb_refl|]. destruct (Nat.eqb_spec j k) as [E|E]; [now destruct N; left|]. apply IH. tauto. Qed.
Lemma models_set_at dn k x y td : ~ In k (map fst dn) -> models_set (dn ++ (k, x) :: td) k y = dn ++ (k, y) :: td.
Proof. induction dn as [|[j z] dn IH]; cbn; intros N; [now rewrite Nat.eqb_refl|]. destruct (Nat.eqb_spec j k) as [E|E]; [now destruct N; left|]. f_equal. apply IH. tauto. Qed.

Ltac at_ := unfold hget; match goal with E : nth_error ?h ?p = Some ?c |- context [nth_error ?h ?p] => rewrite E end; cbn [bind].

(** ** log_predict *)
Definition Pprd v := forall fuel h p fp a hist, rep h p v fp -> (length fp <= fuel)%nat -> o_logp fuel h p a hist = v_predict v a hist.
Lemma prd_all ms : Forall (fun mx => Pprd (fst mx)) ms -> forall fuel h d fp a hist, map snd d = map snd ms -> reps h (map fst d) (map fst ms) fp -> (length fp <= fuel)%nat ->
  mapM (fun kv : ptr * R => do l <- o_logp fuel h (fst kv) a hist; Ok (l + snd kv)) d = predict_all (fun m => v_predict m a hist) ms.
Proof.
  induction 1 as [|[m x] ms H HF IH]; intros fuel h d fp a hist E HR L; destruct d as [|[k y] d]; try discriminate E; [reflexivity|].
  injection E as -> E. cbn [map fst] in HR. inversion HR as [|? ? fp1 ? ? fps H1 H2]; subst. rewrite app_length in L. cbn [mapM predict_all fst snd].
  rewrite (H fuel h k fp1 a hist H1) by lia. cbn [fst]. destruct (v_predict m a hist) as [r|e]; [|reflexivity]. cbn [bind]. rewrite (IH fuel h d fps a hist E H2) by lia. reflexivity.
Qed.
Lemma factor_turn l ms h fp hist : reps h l ms fp -> match turn ms hist with
  | Ok i => exists m v fp1 ms1 ms2 l1 l2 f1 f2, the_factor l hist = Ok m /\ ms = ms1 ++ v :: ms2 /\ length ms1 = i /\ l = l1 ++ m :: l2 /\ fp = f1 ++ fp1 ++ f2 /\ reps h l1 ms1 f1 /\ rep h m v fp1 /\ reps h l2 ms2 f2
  | Err e => the_factor l hist = Err e end.
Proof.
  intros H. assert (L : length l = length ms) by (induction H; cbn; auto). unfold turn, the_factor. destruct ms as [|v0 ms0]; destruct l as [|m0 l0]; try discriminate L; [reflexivity|].
  remember (v0 :: ms0) as ms. remember (m0 :: l0) as l. assert (B : (Nat.modulo (length hist) (length ms) < length l)%nat) by (rewrite L; apply Nat.mod_upper_bound; subst ms; discriminate).
  rewrite L. revert B. generalize (Nat.modulo (length hist) (length ms)). clear - H. induction H as [|p v fp ps vs fps H HS IH]; intros i B; [cbn in B; lia|]. destruct i as [|i].
  - exists p, v, fp, [], vs, [], ps, [], fps. cbn. repeat split; auto. constructor.
  - destruct (IH i) as (m & v' & fp1 & ms1 & ms2 & l1 & l2 & f1 & f2 & E1 & -> & E2 & -> & -> & H1 & H2 & H3); [cbn in B; lia|]. exists m, v', fp1, (v :: ms1), ms2, (p :: l1), l2, (fp ++ f1), f2.
    cbn. repeat split; auto; [now rewrite <- app_assoc|now constructor].
Qed.
Lemma predict_at_app prd ms1 v ms2 : predict_at prd (ms1 ++ v :: ms2) (length ms1) = prd v.
Proof. induction ms1; cbn; auto. Qed.
Lemma update_at_app upd ms1 v ms2 : update_at upd (ms1 ++ v :: ms2) (length ms1) = (do (v', r) <- upd v; Ok (ms1 ++ v' :: ms2, r)).
Proof. induction ms1 as [|m ms1 IH]; cbn; [now destruct (upd v) as [[]|]|]. rewrite IH. now destruct (upd v) as [[]|]. Qed.
Lemma in_elt {A} (P : A -> Prop) l1 x l2 : Forall P (l1 ++ x :: l2) -> P x.
Proof. intros H. rewrite Forall_forall in H. apply H. apply in_or_app. right. now left. Qed.

Theorem predict_ok : forall v, Pprd v.
Proof.
  apply val_rect'; red.
  - intros s fuel h p fp a hist H L. inversion H; subst. destruct fuel; [cbn in L; lia|]. cbn [o_logp]. at_. unfold o_kt_logp, get_counts. at_. reflexivity.
  - intros s fuel h p fp a hist H L. inversion H; subst. destruct fuel; [cbn in L; lia|]. cbn [o_logp]. at_. unfold o_ktb_logp, get_list. at_. reflexivity.
  - intros s fuel h p fp a hist H L. inversion H; subst. destruct fuel; [cbn in L; lia|]. cbn [o_logp]. at_. unfold o_sad_logp, get_counts. at_. reflexivity.
  - intros fuel h p fp a hist H L. inversion H; subst. destruct fuel; [cbn in L; lia|]. cbn [o_logp]. at_. reflexivity.
  - intros ms lp HF fuel h p fp a hist H L. inversion H; subst. destruct fuel; [cbn in L; lia|]. cbn [o_logp]. at_. unfold get_models. at_. cbn in L.
    erewrite (prd_all ms HF fuel h d); [reflexivity|eassumption|eassumption|lia].
  - intros ms HF fuel h p fp a hist H L. inversion H; subst. destruct fuel; [cbn in L; lia|]. cbn [o_logp v_predict]. at_. unfold get_factors. at_. cbn in L.
    match goal with HR : reps h l ms ?f |- _ => pose proof (factor_turn l ms h f hist HR) as T end. destruct (turn ms hist) as [i|e]; [|now rewrite T]. destruct T as (m & v & fp1 & ms1 & ms2 & l1 & l2 & f1 & f2 & E1 & -> & <- & -> & E2 & R1 & R2 & R3).
    rewrite E1. cbn [bind]. rewrite predict_at_app. apply (in_elt _ _ _ _ HF) with fp1; [exact R2|]. subst. rewrite !app_length in L. lia.
Qed.
