From Coq Require Import Permutation Lra.
From Verif Require Import Spec.CopiesSpec Proofs.CopiesFacts Proofs.CopiesUpdate.
Open Scope R_scope.

(** The variables of a program are the values. *)
Inductive wr (h : heap) : list (option ptr) -> list (option val) -> list ptr -> Prop :=
| wr_nil : wr h [] [] []
| wr_none vars vals fps : wr h vars vals fps -> wr h (None :: vars) (None :: vals) fps
| wr_some p v fp vars vals fps : rep h p v fp -> wr h vars vals fps -> wr h (Some p :: vars) (Some v :: vals) (fp ++ fps).

Lemma wr_frame h vars vals fps : wr h vars vals fps -> forall h', (forall q, In q fps -> nth_error h' q = nth_error h q) -> wr h' vars vals fps.
Proof.
  induction 1 as [|vars vals fps H IH|p v fp vars vals fps HR H IH]; intros h' F; constructor; auto.
  - apply (proj1 (rep_frame h)) with (1 := HR). intros q Hq. apply F. apply in_or_app. now left.
  - apply IH. intros q Hq. apply F. apply in_or_app. now right.
Qed.
Lemma wr_bound h vars vals fps : wr h vars vals fps -> forall q, In q fps -> (q < length h)%nat.
Proof. induction 1 as [|vars vals fps H IH|p v fp vars vals fps HR H IH]; intros q Hq; [destruct Hq|auto|]. apply in_app_or in Hq as [Hq|Hq]; [|auto]. exact (proj1 (rep_bound h) _ _ _ HR q Hq). Qed.
Lemma wr_ext h ext vars vals fps : wr h vars vals fps -> wr (h ++ ext) vars vals fps.
Proof. intros H. apply wr_frame with (1 := H). intros q Hq. apply nth_error_app1. exact (wr_bound _ _ _ _ H q Hq). Qed.
Lemma wr_snoc h p v fp vars vals fps : wr h vars vals fps -> rep h p v fp -> wr h (vars ++ [Some p]) (vals ++ [Some v]) (fps ++ fp).
Proof.
  induction 1 as [|vars vals fps H IH|q u fq vars vals fps HR H IH]; intros HP; cbn.
  - rewrite <- (app_nil_r fp). constructor; [exact HP|constructor].
  - constructor. auto.
  - rewrite <- app_assoc. constructor; auto.
Qed.
Lemma wr_at h vars vals fps i : wr h vars vals fps -> match nth_error vals i with
  | Some (Some v) => exists p fp f1 f2, nth_error vars i = Some (Some p) /\ rep h p v fp /\ fps = f1 ++ fp ++ f2 /\ wr h (list_set vars i None) (list_set vals i None) (f1 ++ f2) /\
      (forall h' v', rep h' p v' fp -> (forall q, In q (f1 ++ f2) -> nth_error h' q = nth_error h q) -> wr h' vars (list_set vals i (Some v')) fps)
  | Some None => nth_error vars i = Some None
  | None => nth_error vars i = None
  end.
Proof.
  intros H. revert i. induction H as [|vars vals fps H IH|q u fq vars vals fps HR H IH]; intros [|i]; cbn; try reflexivity.
  - specialize (IH i). destruct (nth_error vals i) as [[v|]|]; [|exact IH|exact IH]. destruct IH as (p & fp & f1 & f2 & E & R1 & E2 & W & K). exists p, fp, f1, f2.
    repeat split; auto; [now constructor|]. intros h' v' H1 H2. constructor. auto.
  - exists q, fq, [], fps. repeat split; auto; [now constructor|]. intros h' v' H1 H2. constructor; [exact H1|]. apply wr_frame with (1 := H). exact H2.
  - specialize (IH i). destruct (nth_error vals i) as [[v|]|]; [|exact IH|exact IH]. destruct IH as (p & fp & f1 & f2 & E & R1 & -> & W & K). exists p, fp, (fq ++ f1), f2.
    repeat split; auto; [now rewrite <- app_assoc|rewrite <- app_assoc; now constructor|]. intros h' v' H1 H2. constructor.
    + apply (proj1 (rep_frame h)) with (1 := HR). intros z Hz. apply H2. rewrite <- app_assoc. apply in_or_app. now left.
    + apply K; [exact H1|]. intros z Hz. apply H2. rewrite <- app_assoc. apply in_or_app. now right.
Qed.
Lemma take_ok h l : forall vars vals fps, wr h vars vals fps -> match take vals l with
  | Ok (vals', vs) => exists vars' ps f1 f2, take vars l = Ok (vars', ps) /\ wr h vars' vals' f1 /\ reps h ps vs f2 /\ Permutation (f1 ++ f2) fps
  | Err e => take vars l = Err e
  end.
Proof.
  induction l as [|i l IH]; intros vars vals fps H; cbn [take].
  - exists vars, [], fps, []. rewrite app_nil_r. repeat split; auto. constructor.
  - pose proof (wr_at h vars vals fps i H) as HA. destruct (nth_error vals i) as [[v|]|]; [|now rewrite HA|now rewrite HA]. destruct HA as (p & fp & f1 & f2 & -> & R1 & -> & W & _).
    specialize (IH _ _ _ W). destruct (take (list_set vals i None) l) as [[vals' vs]|e]; cbn [bind]; [|now rewrite IH]. destruct IH as (vars' & ps & g1 & g2 & -> & W1 & R2 & HP). cbn [bind].
    exists vars', (p :: ps), g1, (fp ++ g2). split; [reflexivity|]. split; [exact W1|]. split; [now constructor|].
    rewrite (Permutation_app_comm fp g2), app_assoc, HP. rewrite <- app_assoc. apply Permutation_app_head. apply Permutation_app_comm.
Qed.
Lemma fuel_ok h p v fp : rep h p v fp -> NoDup fp -> (length fp <= depth_bound h)%nat.
Proof.
  intros H ND. unfold depth_bound. assert (X : (length fp <= length (seq 0 (length h)))%nat). { apply NoDup_incl_length; [exact ND|]. intros q Hq. apply in_seq. pose proof (proj1 (rep_bound h) _ _ _ H q Hq). lia. }
  rewrite seq_length in X. lia.
Qed.
Lemma models_fold l ms : forall dn, NoDup (map fst dn ++ ms) -> fold_left (fun d m => models_set d m l) ms dn = dn ++ map (fun m => (m, l)) ms.
Proof.
  induction ms as [|m ms IH]; intros dn ND; [cbn; now rewrite app_nil_r|]. cbn [fold_left map].
  assert (N : ~ In m (map fst dn)) by (intros HI; destruct (nodup_parts _ _ ND) as (_ & _ & D); exact (D m HI (or_introl eq_refl))).
  assert (E : models_set dn m l = dn ++ [(m, l)]). { clear - N. induction dn as [|[k x] dn IH]; cbn; [reflexivity|]. destruct (Nat.eqb_spec k m) as [E|E]; [destruct N; now left|]. f_equal. apply IH. intros HI. apply N. now right. }
  rewrite E, IH; [now rewrite <- app_assoc|]. rewrite map_app, <- app_assoc. exact ND.
Qed.
Lemma reps_distinct h ps vs fp : reps h ps vs fp -> NoDup fp -> NoDup ps.
Proof.
  induction 1 as [|p v f ps vs fps HR HS IH]; intros ND; [constructor|]. destruct (nodup_parts _ _ ND) as (D1 & D2 & D3). constructor; [|auto].
  intros HI. apply (reps_in _ _ _ _ HS) in HI. apply (D3 p); [|exact HI]. destruct (rep_head _ _ _ _ HR) as [g ->]. now left.
Qed.
Lemma reps_len h ps vs fp : reps h ps vs fp -> length ps = length vs.
Proof. induction 1; cbn; auto. Qed.

Lemma with_leaf h vars vals fps c d p v : wr h vars vals fps -> NoDup fps -> p = length (h ++ [c]) -> rep ((h ++ [c]) ++ [d]) p v [p; length h] ->
  wr ((h ++ [c]) ++ [d]) (vars ++ [Some p]) (vals ++ [Some v]) (fps ++ [p; length h]) /\ NoDup (fps ++ [p; length h]).
Proof.
  intros W ND -> HR. split; [apply wr_snoc; [do 2 apply wr_ext; exact W|exact HR]|]. destruct (new_pair h c d) as (_ & D & N). apply nodup_join; [exact ND|exact D|]. intros z Hz HI. apply N in HI. pose proof (wr_bound _ _ _ _ W z Hz). lia.
Qed.
Lemma with_holder h vars vals fps f2 c d v p : wr h vars vals fps -> NoDup (fps ++ f2) -> (forall q, In q f2 -> (q < length h)%nat) -> p = length (h ++ [c]) -> rep ((h ++ [c]) ++ [d]) p v (p :: length h :: f2) ->
  wr ((h ++ [c]) ++ [d]) (vars ++ [Some p]) (vals ++ [Some v]) (fps ++ p :: length h :: f2) /\ NoDup (fps ++ p :: length h :: f2).
Proof.
  intros W ND B -> HR. split; [apply wr_snoc; [do 2 apply wr_ext; exact W|exact HR]|]. destruct (nodup_parts _ _ ND) as (D1 & D2 & D3). rewrite app_length. cbn [length]. apply nodup_join; [exact D1|constructor; [|constructor; [|exact D2]]|].
  - intros [E|HI]; [lia|apply B in HI; lia].
  - intros HI. apply B in HI. lia.
  - intros z Hz [<-|[<-|HI]]; [pose proof (wr_bound _ _ _ _ W _ Hz); lia|pose proof (wr_bound _ _ _ _ W _ Hz); lia|exact (D3 z Hz HI)].
Qed.

Lemma step_ok h vars vals fps o : wr h vars vals fps -> NoDup fps -> match v_step vals o with
  | Ok (vals', rs) => exists h' vars' fps', step (World h vars) o = Ok (World h' vars', rs) /\ wr h' vars' vals' fps' /\ NoDup fps'
  | Err e => step (World h vars) o = Err e
  end.
Proof.
  intros W ND. destruct o as [alphabet| |n| |l|l|i|i|i a hist w|i a hist]; cbn [v_step step w_heap w_vars].
  - do 2 eexists. exists (fps ++ [length (h ++ [DCounts (kt_counts (kt_init alphabet))]); length h]). split; [reflexivity|]. eapply with_leaf; [exact W|exact ND|reflexivity|].
    constructor; [apply ext_end|apply ext_at, ext_end].
  - do 2 eexists. exists (fps ++ [length (h ++ [LCounts [/2; /2]]); length h]). split; [reflexivity|]. eapply with_leaf; [exact W|exact ND|reflexivity|]. constructor; [apply ext_end|apply ext_at, ext_end].
  - do 2 eexists. exists (fps ++ [length (h ++ [DCounts []]); length h]). split; [reflexivity|]. eapply with_leaf; [exact W|exact ND|reflexivity|]. constructor; [apply ext_end|apply ext_at, ext_end].
  - do 2 eexists. exists (fps ++ [length h]). split; [reflexivity|]. split; [apply wr_snoc; [now apply wr_ext|constructor; apply ext_end]|]. apply nodup_join; [exact ND|repeat constructor; intros []|]. intros z Hz [<-|[]]. pose proof (wr_bound _ _ _ _ W _ Hz). lia.
  - pose proof (take_ok h l vars vals fps W) as HT. destruct (take vals l) as [[vals' vs]|e]; cbn [bind]; [|now rewrite HT]. destruct HT as (vars' & ps & f1 & f2 & -> & W1 & R1 & HP). cbn [bind].
    assert (ND1 : NoDup (f1 ++ f2)) by (apply Permutation_NoDup with (2 := ND); now symmetry). destruct (nodup_parts _ _ ND1) as (D1 & D2 & D3). unfold new_avg. rewrite (reps_len _ _ _ _ R1). destruct vs as [|v vs].
    + cbn. unfold py_div. destruct (Req_EM_T 0 0) as [_|N]; [reflexivity|now destruct N].
    + assert (LP : 0 < INR (length (v :: vs))) by (apply lt_0_INR; cbn; lia). unfold py_div. destruct (Req_EM_T (INR (length (v :: vs))) 0) as [E|_]; [lra|]. cbn [bind].
      unfold py_log. destruct (Rlt_dec 0 (1 / INR (length (v :: vs)))) as [_|N]; [|exfalso; apply N; apply Rdiv_lt_0_compat; lra]. cbn [bind].
      set (x := ln (1 / INR (length (v :: vs)))). rewrite models_fold by exact (reps_distinct _ _ _ _ R1 D2). cbn [app]. unfold halloc, with_new. cbn [fst snd].
      do 2 eexists. exists (f1 ++ length (h ++ [DModels (map (fun m => (m, x)) ps)]) :: length h :: f2). split; [reflexivity|]. eapply with_holder; [exact W1|exact ND1|exact (proj2 (rep_bound h) _ _ _ R1)|reflexivity|].
      apply rep_avg with (map (fun m => (m, x)) ps); [apply ext_end|apply ext_at, ext_end|..].
      * rewrite !map_map. cbn [snd]. pose proof (reps_len _ _ _ _ R1) as LL. revert LL. generalize (v :: vs). clear. induction ps as [|p ps IH]; intros [|u us] LL; try discriminate LL; [reflexivity|]. cbn. f_equal. apply IH. now injection LL.
      * rewrite !map_map. cbn [fst]. rewrite !map_id. do 2 apply reps_ext. exact R1.
  - pose proof (take_ok h l vars vals fps W) as HT. destruct (take vals l) as [[vals' vs]|e]; cbn [bind]; [|now rewrite HT]. destruct HT as (vars' & ps & f1 & f2 & -> & W1 & R1 & HP). cbn [bind].
    assert (ND1 : NoDup (f1 ++ f2)) by (apply Permutation_NoDup with (2 := ND); now symmetry). unfold new_fac, halloc, with_new. cbn [fst snd].
    do 2 eexists. exists (f1 ++ length (h ++ [LModels ps]) :: length h :: f2). split; [reflexivity|]. eapply with_holder; [exact W1|exact ND1|exact (proj2 (rep_bound h) _ _ _ R1)|reflexivity|].
    apply rep_fac with ps; [apply ext_end|apply ext_at, ext_end|]. do 2 apply reps_ext. exact R1.
  - pose proof (wr_at h vars vals fps i W) as HA. unfold v_var, var. cbn [w_vars]. destruct (nth_error vals i) as [[v|]|]; cbn [bind]; [|now rewrite HA|now rewrite HA]. destruct HA as (p & fp & f1 & f2 & -> & R1 & -> & _). cbn [bind].
    destruct (nodup_parts _ _ ND) as (_ & D2 & _). destruct (nodup_parts _ _ D2) as (D3 & _).
    pose proof (copy_ok v (depth_bound h) h p fp R1 (fuel_ok _ _ _ _ R1 D3)) as HC. destruct (has_copy v); [|now rewrite HC]. destruct HC as (h' & p' & fp' & -> & R2 & (ext & ->) & D4 & N4). cbn [bind]. unfold with_new. cbn [fst snd].
    do 3 eexists. split; [reflexivity|]. split; [apply wr_snoc; [apply wr_ext; exact W|exact R2]|]. apply nodup_join; [exact ND|exact D4|]. intros z Hz HI. apply N4 in HI. pose proof (wr_bound _ _ _ _ W z Hz). lia.
  - pose proof (wr_at h vars vals fps i W) as HA. unfold v_var, var. cbn [w_vars]. destruct (nth_error vals i) as [[v|]|]; cbn [bind]; [|now rewrite HA|now rewrite HA]. destruct HA as (p & fp & f1 & f2 & -> & R1 & -> & W1 & _). cbn [bind].
    do 3 eexists. split; [reflexivity|]. split; [exact W1|]. destruct (nodup_parts _ _ ND) as (D1 & D2 & D3). destruct (nodup_parts _ _ D2) as (_ & D4 & _). apply nodup_join; auto. intros z Hz HI. apply (D3 z Hz). apply in_or_app. now right.
  - pose proof (wr_at h vars vals fps i W) as HA. unfold v_var, var. cbn [w_vars]. destruct (nth_error vals i) as [[v|]|]; cbn [bind]; [|now rewrite HA|now rewrite HA]. destruct HA as (p & fp & f1 & f2 & -> & R1 & -> & _ & K). cbn [bind].
    destruct (nodup_parts _ _ ND) as (D1 & D2 & D3). destruct (nodup_parts _ _ D2) as (D4 & D5 & D6).
    pose proof (update_ok v (depth_bound h) h p fp a hist w R1 D4 (fuel_ok _ _ _ _ R1 D4)) as HU. destruct (v_update v a hist w) as [[v' r]|e]; cbn [bind]; [|now rewrite HU]. destruct HU as (h' & -> & R2 & L2 & F2). cbn [bind].
    do 3 eexists. split; [reflexivity|]. split; [|exact ND]. apply K; [exact R2|]. intros z Hz. apply F2. intros HI. apply in_app_or in Hz as [Hz|Hz]; [apply (D3 z Hz); apply in_or_app; now left|exact (D6 z HI Hz)].
  - pose proof (wr_at h vars vals fps i W) as HA. unfold v_var, var. cbn [w_vars]. destruct (nth_error vals i) as [[v|]|]; cbn [bind]; [|now rewrite HA|now rewrite HA]. destruct HA as (p & fp & f1 & f2 & -> & R1 & -> & _). cbn [bind].
    destruct (nodup_parts _ _ ND) as (_ & D2 & _). destruct (nodup_parts _ _ D2) as (D3 & _). rewrite (predict_ok v (depth_bound h) h p fp a hist R1 (fuel_ok _ _ _ _ R1 D3)). destruct (v_predict v a hist) as [r|e]; cbn [bind]; [|reflexivity].
    do 3 eexists. split; [reflexivity|]. split; [exact W|exact ND].
Qed.
Lemma program_ok ops : forall h vars vals fps, wr h vars vals fps -> NoDup fps -> program (World h vars) ops = v_program vals ops.
Proof.
  induction ops as [|o ops IH]; intros h vars vals fps W ND; [reflexivity|]. cbn [program v_program]. pose proof (step_ok h vars vals fps o W ND) as HS. destruct (v_step vals o) as [[vals' rs]|e]; cbn [bind]; [|now rewrite HS].
  destruct HS as (h' & vars' & fps' & -> & W' & ND'). cbn [bind]. now rewrite (IH _ _ _ _ W' ND').
Qed.
Theorem copies_deep ops : program (World [] []) ops = v_program [] ops.
Proof. apply program_ok with []; constructor. Qed.

(** ** Classes of models *)
Lemma behaves_leaves : behaves KT_model VKT /\ behaves KTB_model VKTB /\ behaves SAD_model VSAD /\ behaves Factored.Dumb_model (fun _ => VDumb).
Proof. repeat split. Qed.
Theorem behaves_fac S (M : model S) f : behaves M f -> behaves (Factored_model M) (fun s => VFac (map f s)).
Proof.
  intros H s a h. split; [intros w|]; cbn [v_update v_predict Factored_model m_update m_logp]; unfold fac_update, fac_log_predict, turn, fac_index.
  - destruct s as [|s0 s1]; [reflexivity|]. set (s := s0 :: s1). change (match map f s with [] => Err ZeroDivisionError | _ => Ok (length h mod length (map f s))%nat end) with (@Ok nat (length h mod length (map f s))%nat).
    cbn [bind]. rewrite map_length. generalize (length h mod length s)%nat. clear - H. induction s as [|m s IH]; intros [|i]; cbn; try reflexivity.
    + rewrite (proj1 (H m a h) 1). destruct (m_update M m a h 1) as [[m' r]|e]; reflexivity.
    + specialize (IH i). destruct (update_at _ (map f s) i) as [[ms r]|e]; cbn [bind] in *; destruct (nth_error s i) as [m0|]; cbn [bind] in *; try (destruct (m_update M m0 a h 1) as [[m' r']|e']; cbn [bind] in *); try discriminate IH; injection IH; intros; subst; reflexivity.
  - destruct s as [|s0 s1]; [reflexivity|]. set (s := s0 :: s1). change (match map f s with [] => Err ZeroDivisionError | _ => Ok (length h mod length (map f s))%nat end) with (@Ok nat (length h mod length (map f s))%nat).
    cbn [bind]. rewrite map_length. generalize (length h mod length s)%nat. clear - H. induction s as [|m s IH]; intros [|i]; cbn; try reflexivity; [apply H|apply IH].
Qed.
Theorem behaves_avg S (M : model S) f : behaves M f -> behaves (AVG_model M) (fun s => VAvg (map (fun kv => (f (fst (snd kv)), snd (snd kv))) (av_models s)) (av_lp s)).
Proof.
  intros H [d lp] a h. split; [intros w|]; cbn [v_update v_predict AVG_model m_update m_logp av_models av_lp]; unfold avg_update, avg_log_predict, avg_weights; cbn [av_models av_lp].
  - assert (E : update_all (fun m => v_update m a h w) (map (fun kv : Z * (S * R) => (f (fst (snd kv)), snd (snd kv))) d) =
      (do ms <- mapM (fun kv : Z * (S * R) => let '(k, (m, lp)) := kv in do (m', l) <- m_update M m a h w; Ok (k, (m', lp + l))) d; Ok (map (fun kv => (f (fst (snd kv)), snd (snd kv))) ms))).
    { clear lp. induction d as [|[k [m x]] d IH]; [reflexivity|]. cbn [map update_all mapM fst snd]. rewrite (proj1 (H m a h) w). destruct (m_update M m a h w) as [[m' r]|e]; [|reflexivity]. cbn [bind]. rewrite IH. destruct (mapM _ d) as [ms|e]; reflexivity. }
    rewrite E. destruct (mapM _ d) as [ms|e]; [|reflexivity]. cbn [bind]. rewrite map_map. cbn [snd]. destruct (logsumexp (map (fun kv => snd (snd kv)) ms)) as [l|e]; reflexivity.
  - assert (E : predict_all (fun m => v_predict m a h) (map (fun kv : Z * (S * R) => (f (fst (snd kv)), snd (snd kv))) d) = mapM (fun kv : Z * (S * R) => let '(k, (m, lp)) := kv in do l <- m_logp M m a h; Ok (l + lp)) d).
    { clear lp. induction d as [|[k [m x]] d IH]; [reflexivity|]. cbn [map predict_all mapM fst snd]. rewrite (proj2 (H m a h)). destruct (m_logp M m a h) as [r|e]; [|reflexivity]. cbn [bind]. rewrite IH. destruct (mapM _ d) as [ms|e]; reflexivity. }
    rewrite E. reflexivity.
Qed.

(** ** What copying changes *)
Lemma log_ok x y r : x <> 0 -> 0 < x -> y / x = r -> 0 < r -> (do q <- py_div y x; py_log q) = Ok (ln r).
Proof. intros N P E Q. unfold py_div. destruct (Req_EM_T x 0) as [E0|_]; [contradiction|]. cbn [bind]. unfold py_log. rewrite E. now destruct (Rlt_dec 0 r). Qed.
Definition twice : heap := [LCounts [/2; /2]; OKTB 0%nat; LModels [1%nat; 1%nat]; OFac 2%nat].
Lemma twice_made : (let '(h, k) := new_ktb [] in new_fac h [k; k]) = (twice, 3%nat).
Proof. reflexivity. Qed.
Definition twice' : heap := twice ++ [LCounts [/2; /2]; OKTB 4%nat; LCounts [/2; /2]; OKTB 6%nat; LModels [5%nat; 7%nat]; OFac 8%nat].
Lemma twice_copied : o_copy (depth_bound twice) twice 3%nat = Ok (twice', 9%nat).
Proof. reflexivity. Qed.
Ltac decide_reals := repeat match goal with
  | |- context [Req_EM_T ?a ?b] => destruct (Req_EM_T a b); [exfalso; lra|]
  | |- context [Rlt_dec ?a ?b] => destruct (Rlt_dec a b); [|exfalso; lra]
  end.
Lemma half_half : /2 / (/2 + /2) = /2.
Proof. field. Qed.
Lemma twice_updated p : p = 3%nat \/ p = 9%nat -> exists h, o_update (depth_bound twice') twice' p 0 [] 1 = Ok (h, ln (/2)) /\ o_logp (depth_bound h) h p 0 [0%Z] = Ok (ln (if Nat.eqb p 3 then 3/4 else /2)).
Proof.
  intros [E|E]; subst p.
  - exists (list_set twice' 0 (LCounts [/2 + 1; /2])). split.
    + cbn -[Req_EM_T Rlt_dec ln Rdiv Rplus Rinv IZR]. unfold o_ktb_logp, py_div, py_log. cbn -[Req_EM_T Rlt_dec ln Rdiv Rplus Rinv IZR]. change (Pos.to_nat 1) with 1%nat. cbn -[Req_EM_T Rlt_dec ln Rdiv Rplus Rinv IZR]. decide_reals. cbn -[Req_EM_T Rlt_dec ln Rdiv Rplus Rinv IZR]. rewrite (half_half). decide_reals. reflexivity.
    + cbn -[Req_EM_T Rlt_dec ln Rdiv Rplus Rinv IZR]. unfold o_ktb_logp, py_div, py_log. cbn -[Req_EM_T Rlt_dec ln Rdiv Rplus Rinv IZR]. change (Pos.to_nat 1) with 1%nat. cbn -[Req_EM_T Rlt_dec ln Rdiv Rplus Rinv IZR]. decide_reals. cbn -[Req_EM_T Rlt_dec ln Rdiv Rplus Rinv IZR].
      assert (V : (/2 + 1) / (/2 + 1 + /2) = 3/4) by (field; lra). rewrite V. decide_reals. reflexivity.
  - exists (list_set twice' 4 (LCounts [/2 + 1; /2])). split.
    + cbn -[Req_EM_T Rlt_dec ln Rdiv Rplus Rinv IZR]. unfold o_ktb_logp, py_div, py_log. cbn -[Req_EM_T Rlt_dec ln Rdiv Rplus Rinv IZR]. change (Pos.to_nat 1) with 1%nat. cbn -[Req_EM_T Rlt_dec ln Rdiv Rplus Rinv IZR]. decide_reals. cbn -[Req_EM_T Rlt_dec ln Rdiv Rplus Rinv IZR]. rewrite (half_half). decide_reals. reflexivity.
    + cbn -[Req_EM_T Rlt_dec ln Rdiv Rplus Rinv IZR]. unfold o_ktb_logp, py_div, py_log. cbn -[Req_EM_T Rlt_dec ln Rdiv Rplus Rinv IZR]. change (Pos.to_nat 1) with 1%nat. cbn -[Req_EM_T Rlt_dec ln Rdiv Rplus Rinv IZR]. decide_reals. cbn -[Req_EM_T Rlt_dec ln Rdiv Rplus Rinv IZR].
      assert (V : /2 / (/2 + /2) = /2) by (field; lra). rewrite V. decide_reals. reflexivity.
Qed.
Theorem shared_lost : exists h f c h1, (let '(h, k) := new_ktb [] in new_fac h [k; k]) = (h, f) /\ o_copy (depth_bound h) h f = Ok (h1, c) /\
  (exists g, o_update (depth_bound h1) h1 f 0 [] 1 = Ok (g, ln (/2)) /\ o_logp (depth_bound g) g f 0 [0%Z] = Ok (ln (3/4))) /\
  (exists g, o_update (depth_bound h1) h1 c 0 [] 1 = Ok (g, ln (/2)) /\ o_logp (depth_bound g) g c 0 [0%Z] = Ok (ln (/2))) /\ ln (3/4) <> ln (/2).
Proof.
  destruct (twice_updated 3 (or_introl eq_refl)) as (g1 & U1 & P1). destruct (twice_updated 9 (or_intror eq_refl)) as (g2 & U2 & P2).
  exists twice, 3%nat, 9%nat, twice'. split; [reflexivity|]. split; [reflexivity|]. split; [exists g1; auto|]. split; [exists g2; auto|]. intros E. apply ln_inv in E; lra.
Qed.
Theorem dumb_lost : program (World [] []) [MDumb; MKTB; MFac [0%nat; 1%nat]] = Ok [] /\ program (World [] []) [MDumb; MKTB; MFac [0%nat; 1%nat]; MCopy 2%nat] = Err NotImplementedError.
Proof. split; reflexivity. Qed.

(** an example: a Factored is copied, and both are updated *)
Definition ex_program : list mop := [MKTB; MKT [0; 1]%Z; MFac [0%nat; 1%nat]; MCopy 2%nat; MUpdate 2%nat 0 [] 1; MUpdate 3%nat 1 [] 1; MPredict 2%nat 0 []; MPredict 3%nat 0 []].
Lemma bit0 x y : 0 < x -> 0 < y -> ktb_log_predict [x; y] 0 [] = Ok (ln (x / (x + y))).
Proof.
  intros Hx Hy. unfold ktb_log_predict, py_get. cbn -[Req_EM_T Rlt_dec ln Rdiv Rplus py_div py_log]. change (Pos.to_nat 1) with 1%nat. cbn -[Req_EM_T Rlt_dec ln Rdiv Rplus py_div py_log].
  unfold py_div. destruct (Req_EM_T (x + y) 0); [exfalso; lra|]. cbn [bind]. unfold py_log. destruct (Rlt_dec 0 (x / (x + y))) as [_|N]; [reflexivity|]. destruct N. apply Rdiv_lt_0_compat; lra.
Qed.
Lemma bit1 x y : 0 < x -> 0 < y -> ktb_log_predict [x; y] 1 [] = Ok (ln (y / (x + y))).
Proof.
  intros Hx Hy. unfold ktb_log_predict, py_get. cbn -[Req_EM_T Rlt_dec ln Rdiv Rplus py_div py_log]. change (Pos.to_nat 1) with 1%nat. cbn -[Req_EM_T Rlt_dec ln Rdiv Rplus py_div py_log].
  unfold py_div. destruct (Req_EM_T (x + y) 0); [exfalso; lra|]. cbn [bind]. unfold py_log. destruct (Rlt_dec 0 (y / (x + y))) as [_|N]; [reflexivity|]. destruct N. apply Rdiv_lt_0_compat; lra.
Qed.
Lemma ex_program_runs : program (World [] []) ex_program = Ok [ln (/2); ln (/2); ln (3/4); ln (1/4)].
Proof.
  rewrite copies_deep. cbn -[ktb_log_predict kt_init Rplus Rdiv Rinv ln]. unfold ktb_update, ktb_init.
  repeat (first [rewrite bit0 by lra|rewrite bit1 by lra]; cbn -[ktb_log_predict kt_init Rplus Rdiv Rinv ln]; unfold ktb_update; change (Pos.to_nat 1) with 1%nat; cbn -[ktb_log_predict kt_init Rplus Rdiv Rinv ln]).
  replace (/2 / (/2 + /2)) with (/2) by field. replace ((/2 + 1) / (/2 + 1 + /2)) with (3/4) by (field; lra). replace (/2 / (/2 + (/2 + 1))) with (1/4) by (field; lra). reflexivity.
Qed.
