(** Statements about PTW in the form used by the property files. *)
From Coq Require Import Lra.
From Verif Require Import Model.PTW Model.KT Spec.PTWSpec Spec.KTSpec Proofs.RealFacts Proofs.PyFacts Proofs.ProbFacts.
From Verif Require Import Proofs.PTWFacts Proofs.PTWTop Proofs.PTWMixture Proofs.PTWNorm Proofs.PTWPredict Proofs.KTBinFacts Proofs.CTWProps.
Open Scope R_scope.

(** The literal promotion (model.py:539-542, then the code below it): a fresh right child is
    installed and then updated like any right child. *)
Lemma promotion_literal {S} (M : model S) m fresh n x h w : partition_is_complete n = true ->
  pnode_update M m fresh n x h w =
  (let '(PNode base height count blp llp lp rch) := n in
   do (base', l) <- m_update M base x h w;
   do r' <- pnode_update M m fresh (new_pnode m fresh) x h w;
   let rlp := lift (Datatypes.S height - p_height r' - 1) (p_blp r') (p_lp r') in
   Ok (PNode base' (Datatypes.S height) (count + 1) (blp + l) lp
             (log_0_5 + logsumexp2 (blp + l) (lp + rlp)) (Some r'))).
Proof.
  destruct n as [base height count blp llp lp rch]. intros H. cbn [pnode_update]. rewrite H.
  destruct (m_update M base x h w) as [[base' l]|e]; cbn [bind]; [|reflexivity].
  unfold new_pnode. cbn [pnode_update]. rewrite (complete_spec (PNode fresh m 0 0 0 0 None)). cbn [p_height p_count].
  replace (2 ^ m <=? 0)%nat with false by (symmetry; apply Nat.leb_gt, pow_pos).
  destruct (m_update M fresh x h w) as [[rb rl]|e]; cbn [bind]; [|reflexivity].
  cbn [p_height p_blp p_lp]. rewrite Nat.add_0_l. reflexivity.
Qed.

(** PTW and PTWFixedLength compete with every partition. *)
Section compete.
  Context {S : Type} (M : model S).
  Context (A : list Z) (okh : list Z -> Prop) (okw : R -> Prop) (Inv : S -> Prop).
  Hypothesis HS : steps M A okh okw Inv.
  Variable mk : nat -> S.
  Hypothesis Hmk : forall t, Inv (mk t).
  Variable m : nat.
  Notation ok := (ok_event A okh okw).

  Lemma ptwf_regret len evs p : Forall ok evs -> (length evs <= len)%nat ->
    is_part (fixed_height_of len - m) p ->
    exists s l, feed (fun t => ptwf_update M m (mk t)) 0 (ptwf_init m len (mk 0)) evs = Ok (s, l) /\
      - l <= - ln (part_prob M mk m (fixed_height_of len - m) 0 p evs) +
             INR (pcost (fixed_height_of len - m) p) * ln 2.
  Proof.
    intros Hev Hl Hp. destruct (ptwf_recursion M A okh okw Inv HS mk Hmk m len evs Hev Hl) as (s & l & Hf & Hx).
    exists s, l. split; [exact Hf|].
    pose proof (ptw_regret M mk m A okh okw Inv HS Hmk _ p 0 evs Hp Hev) as H.
    rewrite <- Hx in H. rewrite ln_exp in H. exact H.
  Qed.

  Lemma ptw_unknown_regret evs p : Forall ok evs -> is_part (levels m (length evs)) p ->
    exists s l, feed (fun t => ptw_update M m (mk t)) 0 (ptw_init m (mk 0)) evs = Ok (s, l) /\
      - l <= - ln (part_prob M mk m (levels m (length evs)) 0 p evs) +
             INR (pcost (levels m (length evs)) p) * ln 2 + INR (pred (levels m (length evs))) * ln (3 / 2).
  Proof.
    intros Hev Hp. destruct (ptw_unknown_length M A okh okw Inv HS mk Hmk m evs Hev) as (s & l & Hf & _ & Hx).
    exists s, l. split; [exact Hf|].
    pose proof (ptw_regret M mk m A okh okw Inv HS Hmk _ p 0 evs Hp Hev) as H. lra.
  Qed.

  Lemma ptwf_mixture len evs : Forall ok evs -> (length evs <= len)%nat ->
    exists s l, feed (fun t => ptwf_update M m (mk t)) 0 (ptwf_init m len (mk 0)) evs = Ok (s, l) /\
      exp l = Rsum (map (fun p => (/ 2) ^ pcost (fixed_height_of len - m) p *
                                  part_prob M mk m (fixed_height_of len - m) 0 p evs)
                        (all_parts (fixed_height_of len - m))).
  Proof.
    intros Hev Hl. destruct (ptwf_recursion M A okh okw Inv HS mk Hmk m len evs Hev Hl) as (s & l & Hf & Hx).
    exists s, l. split; [exact Hf|]. rewrite Hx. apply ptw_mixture.
  Qed.
End compete.

(** ** Partitions for given change points *)
Definition inside (a b c : nat) : bool := (a <? c)%nat && (c <? b)%nat.

(** No change point lies strictly inside a segment. *)
Definition respects (cps : list nat) (sgs : list (nat * nat)) : Prop :=
  forall b len, In (b, len) sgs -> forall c, In c cps -> ~ (b < c < b + len)%nat.

Lemma filter_halves a b c l : (a <= b <= c)%nat ->
  (length (filter (inside a b) l) + length (filter (inside b c) l) <= length (filter (inside a c) l))%nat.
Proof.
  intros H. induction l as [|x l IH]; cbn [filter]; [cbn; lia|].
  destruct (inside a b x) eqn:E1, (inside b c x) eqn:E2, (inside a c x) eqn:E3; cbn [length]; try lia;
    exfalso; unfold inside in E1, E2, E3; rewrite ?andb_true_iff, ?andb_false_iff, ?Nat.ltb_lt, ?Nat.ltb_ge in E1, E2, E3; lia.
Qed.

Lemma partition_for m cps : Forall (fun c => c mod 2 ^ m = 0)%nat cps -> forall d s, (s mod 2 ^ m = 0)%nat ->
  exists p, is_part d p /\ respects cps (segments m d s p) /\
    (pcost d p <= 1 + 2 * length (filter (inside s (s + 2 ^ (m + d))) cps) * d)%nat /\
    (length (segments m d s p) <= 1 + length (filter (inside s (s + 2 ^ (m + d))) cps) * d)%nat.
Proof.
  intros Hc. assert (Hm : (2 ^ m <> 0)%nat) by (apply Nat.pow_nonzero; lia).
  induction d as [|d IH]; intros s Hs.
  - exists Whole. split; [exact I|]. split; [|cbn; lia].
    intros b len [E|[]] c Hin Hlt. injection E as <- <-. rewrite Nat.add_0_r in Hlt.
    rewrite Forall_forall in Hc. specialize (Hc c Hin).
    apply Nat.mod_divides in Hc as (x & Ex); [|exact Hm]. apply Nat.mod_divides in Hs as (y & Ey); [|exact Hm].
    subst. assert (y < x)%nat by nia. nia.
  - destruct (filter (inside s (s + 2 ^ (m + S d))) cps) as [|c0 cs] eqn:E.
    + exists Whole. split; [exact I|]. split; [|cbn; lia].
      intros b len [E'|[]] c Hin Hlt. injection E' as <- <-.
      assert (In c (filter (inside s (s + 2 ^ (m + S d))) cps)); [|rewrite E in H; destruct H].
      apply filter_In. split; [exact Hin|]. unfold inside.
      apply andb_true_iff. rewrite !Nat.ltb_lt. lia.
    + assert (Hs' : ((s + 2 ^ (m + d)) mod 2 ^ m = 0)%nat).
      { rewrite Nat.add_mod, mod_pow_self, Hs by exact Hm. cbn. apply Nat.mod_0_l, Hm. }
      destruct (IH s Hs) as (l & Hl & Hrl & Hcl & Hnl). destruct (IH (s + 2 ^ (m + d))%nat Hs') as (r & Hr & Hrr & Hcr & Hnr).
      exists (Halves l r). split; [split; assumption|]. split.
      * intros b len Hin. cbn [segments] in Hin. apply in_app_or in Hin as [Hin|Hin]; [apply Hrl|apply Hrr]; exact Hin.
      * cbn [pcost segments]. rewrite app_length.
        assert (Hpow : (2 ^ (m + S d) = 2 ^ (m + d) + 2 ^ (m + d))%nat)
          by (replace (m + S d)%nat with (S (m + d)) by lia; cbn [Nat.pow]; lia).
        pose proof (filter_halves s (s + 2 ^ (m + d)) (s + 2 ^ (m + S d)) cps) as Hf.
        rewrite <- E. rewrite Hpow in *. rewrite Nat.add_assoc in *.
        assert (1 <= length (filter (inside s (s + 2 ^ (m + d) + 2 ^ (m + d))) cps))%nat by (rewrite E; cbn; lia).
        specialize (Hf ltac:(lia)). split; nia.
Qed.

Lemma filter_length_le' {X} (f : X -> bool) l : (length (filter f l) <= length l)%nat.
Proof. induction l as [|x l IH]; cbn [filter]; [lia|]. destruct (f x); cbn [length]; lia. Qed.

(** PTW tracks any set of change points at O(log t) nats each. *)
Lemma ptw_changepoints {S} (M : model S) A okh okw Inv mk m cps evs :
  steps M A okh okw Inv -> (forall t, Inv (mk t)) ->
  Forall (fun c => c mod 2 ^ m = 0)%nat cps -> Forall (ok_event A okh okw) evs ->
  let d := levels m (length evs) in
  exists p s l, is_part d p /\ respects cps (segments m d 0 p) /\
    feed (fun t => ptw_update M m (mk t)) 0%nat (ptw_init m (mk 0%nat)) evs = Ok (s, l) /\
    - l <= - ln (part_prob M mk m d 0 p evs) + INR (1 + 2 * length cps * d) * ln 2 + INR (pred d) * ln (3 / 2).
Proof.
  intros HS Hmk Hc Hev d.
  assert (Hm : (2 ^ m <> 0)%nat) by (apply Nat.pow_nonzero; lia).
  destruct (partition_for m cps Hc d 0 (Nat.mod_0_l _ Hm)) as (p & Hp & Hr & Hcost & _).
  destruct (ptw_unknown_regret M A okh okw Inv HS mk Hmk m evs p Hev Hp) as (s & l & Hf & Hl).
  exists p, s, l. split; [exact Hp|]. split; [exact Hr|]. split; [exact Hf|]. fold d in Hl.
  assert (Hle : INR (pcost d p) <= INR (1 + 2 * length cps * d)).
  { apply le_INR. pose proof (filter_length_le' (inside 0 (0 + 2 ^ (m + d))) cps). nia. }
  assert (0 < ln 2) by (rewrite <- ln_1; apply ln_increasing; lra). nra.
Qed.

(** ** Constant factories *)
Lemma ptw_model_feed {S} (M : model S) m fresh s evs :
  feed (fun _ => ptw_update M m fresh) 0 s evs = run (PTW_model M m fresh) s evs.
Proof. exact (feed_const (PTW_model M m fresh) 0 s evs). Qed.

(** ** The boundary bug, concretely: PTW(KTBinary) after one update(0) *)
Lemma ktb_up0 h : ktb_update ktb_init 0 h 1 = Ok ([/ 2 + 1; / 2], ln (/ 2)).
Proof.
  unfold ktb_update. rewrite ktb_half by (left; reflexivity). cbn [bind]. unfold ktb_init. rewrite py_get2_0. cbn [bind].
  rewrite py_set2_0. reflexivity.
Qed.
Lemma ktb_after0_1 h : ktb_log_predict [/ 2 + 1; / 2] 1 h = Ok (ln (/ 4)).
Proof.
  unfold ktb_log_predict. rewrite ?py_get2_0, ?py_get2_1; cbn [bind]; rewrite py_div_ok by lra; cbn [bind];
    (rewrite py_log_ok by lra); do 2 f_equal; lra.
Qed.
Lemma ktb_up00 h : ktb_update [/ 2 + 1; / 2] 0 h 1 = Ok ([/ 2 + 1 + 1; / 2], ln (3 / 4)).
Proof.
  unfold ktb_update. rewrite ktb_after0. cbn [bind]. rewrite py_get2_0. cbn [bind].
  rewrite py_set2_0. reflexivity.
Qed.

Lemma ptw_log_predict_refuted : exists s l0 p0 p1 s' l,
  ptw_update KTB_model 0 ktb_init (ptw_init 0 ktb_init) 0 [] 1 = Ok (s, l0) /\
  ptw_log_predict KTB_model s 0 [0%Z] = Ok p0 /\ ptw_log_predict KTB_model s 1 [0%Z] = Ok p1 /\
  ptw_update KTB_model 0 ktb_init s 0 [0%Z] 1 = Ok (s', l) /\
  exp p0 = 7 / 8 /\ exp p1 = 5 / 8 /\ exp l = 5 / 8.
Proof.
  exists (PTW (PNode [/ 2 + 1; / 2] 0 1 (0 + ln (/ 2)) 0 (0 + ln (/ 2)) None) (0 + ln (/ 2) + 0) 0).
  eexists. do 2 eexists. do 2 eexists.
  unfold ptw_update, ptw_log_predict, ptw_init, new_pnode.
  cbn [pt_tree pt_lp pt_adj pnode_update pnode_log_predict].
  rewrite !complete_spec. cbn [p_height p_count p_lp p_blp Nat.pow Nat.leb Nat.mul Nat.add].
  cbn [KTB_model m_update m_logp]. rewrite !ktb_up0, !ktb_up00, !ktb_after0, !ktb_after0_1.
  cbn [bind p_lp]. split; [reflexivity|]. split; [reflexivity|]. split; [reflexivity|]. split; [reflexivity|].
  cbn [Nat.sub lift].
  rewrite !exp_minus, !exp_plus, !exp_minus, !mix_exp, !exp_plus, !exp_0, !exp_ln by lra.
  rewrite ?exp_log_0_5, ?logsumexp2_exp, ?exp_plus, ?exp_0, ?exp_ln by lra.
  repeat split; field.
Qed.

Lemma min_partition_refuted : exists n, (0 < n)%nat /\ (2 ^ min_height_of n < n)%nat.
Proof. exists 3%nat. unfold min_height_of. cbn. lia. Qed.
