(** PTW.map of ctw.py, and a run after which map does not return the best base. *)
From Coq Require Import Lra Lia.
From Verif Require Import Model.PTW Model.KT Model.CtwPTW Model.CtwFMN Spec.PTWMapSpec Proofs.RealFacts Proofs.PyFacts Proofs.ProbFacts Proofs.PTWFacts Proofs.PTWTop Proofs.PTWMixture Proofs.PTWMap.
From Verif Require Import Proofs.KTFacts Proofs.KTBinFacts Proofs.CtwPTWFacts Proofs.CtwPTWVar Proofs.CtwFMNFacts.
Open Scope R_scope.
Notation bare := (fun h : list Z => h = []).

Lemma qscores_same {S} (Q : probseq S) q : forall n left, qsim Q q n -> qnode_scores Q q left = pnode_scores n left.
Proof.
  induction q as [base height lp llp rch t IH] using qnode_rec_ind. intros [pb ph pc pblp pllp plp pr] left Hs.
  cbn [qsim p_base p_height p_count p_blp p_llp p_lp p_right] in Hs. destruct Hs as (-> & _ & _ & -> & -> & _ & _ & Hr).
  cbn [qnode_scores pnode_scores]. f_equal. destruct rch as [r|], pr as [r'|]; try contradiction; [|reflexivity].
  apply IH, Hr.
Qed.

Lemma qmax_score_same {S} (l : list (R * S)) : forall b, qmax_score b l = max_score b l.
Proof. induction l as [|x l IH]; intros b; cbn [qmax_score max_score]; [reflexivity|apply IH]. Qed.

Lemma qptw_map_best {S} (Q : probseq S) mk A okw Inv :
  (forall s a h w s' l, m_update (q_model Q) s a h w = Ok (s', l) -> q_lp Q s' = q_lp Q s + l) ->
  (forall t, q_lp Q (mk t) = 0) -> steps (q_model Q) A bare okw Inv -> (forall t, Inv (mk t)) ->
  forall H evs s l, Forall (ok_event A bare okw) evs -> (length evs <= 2 ^ H)%nat ->
  feed (fun t => qptw_update Q (mk t)) 0 (qptw_init (mk 0%nat) H) evs = Ok (s, l) ->
  exists b k w lk, qptw_map Q s = Ok b /\ run (q_model Q) (mk k) (skipn k evs) = Ok (b, lk) /\
    In (k, w) (open_scores (q_model Q) mk 0 H 0 evs 1) /\
    (forall j v, In (j, v) (open_scores (q_model Q) mk 0 H 0 evs 1) -> v <= w) /\
    forall j, posterior (q_model Q) mk 0 H 0 evs (length evs - 1) j <=
              2 ^ H * posterior (q_model Q) mk 0 H 0 evs (length evs - 1) k.
Proof.
  intros Hlaw Hmk0 HS Hinv H evs s l Hev Hl Hf.
  destruct (v_feed Q Hlaw mk Hmk0 A okw Inv HS Hinv H evs Hev Hl) as (s' & Hf' & (n & Hs & Hp & _) & _).
  rewrite Hf in Hf'. injection Hf' as <- _.
  destruct (tree_best (q_model Q) mk 0 A bare okw Inv HS Hinv H n evs Hev Hp Hl) as (x & xs & E & k & w & lk & Hr & Hrest).
  exists (snd (max_score x xs)), k, w, lk. split; [|split; [exact Hr|exact Hrest]].
  unfold qptw_map. rewrite (qscores_same Q _ _ 0 Hs), E, qmax_score_same. reflexivity.
Qed.

(** ** Numbers for KTBinary *)
Lemma ktb_seq_0 a b h w evs : 0 < a -> 0 < b ->
  seq_prob KTB_model [a; b] (Event 0 h w :: evs) = a / (a + b) * seq_prob KTB_model [a + w; b] evs.
Proof.
  intros Ha Hb. assert (Hq : 0 < a / (a + b)) by (apply Rdiv_lt_0_compat; lra).
  cbn [seq_prob KTB_model m_update ev_sym ev_hist ev_wt]. unfold ktb_update, ktb_log_predict.
  change (py_get [a; b] 0%Z) with (Ok a). change (py_get [a; b] 1%Z) with (Ok b). cbn [bind]. rewrite py_div_ok by lra. cbn [bind]. rewrite py_log_ok by exact Hq. cbn [bind].
  change (py_set [a; b] 0%Z (a + w)) with (Ok [a + w; b]). cbn [bind]. rewrite exp_ln by exact Hq. reflexivity.
Qed.
Lemma ktb_seq_1 a b h w evs : 0 < a -> 0 < b ->
  seq_prob KTB_model [a; b] (Event 1 h w :: evs) = b / (a + b) * seq_prob KTB_model [a; b + w] evs.
Proof.
  intros Ha Hb. assert (Hq : 0 < b / (a + b)) by (apply Rdiv_lt_0_compat; lra).
  cbn [seq_prob KTB_model m_update ev_sym ev_hist ev_wt]. unfold ktb_update, ktb_log_predict.
  change (py_get [a; b] 0%Z) with (Ok a). change (py_get [a; b] 1%Z) with (Ok b). cbn [bind]. rewrite py_div_ok by lra. cbn [bind]. rewrite py_log_ok by exact Hq. cbn [bind].
  change (py_set [a; b] 1%Z (b + w)) with (Ok [a; b + w]). cbn [bind]. rewrite exp_ln by exact Hq. reflexivity.
Qed.

(** PTWFixedLength(8) over KTBinary on 0 0 1. *)
Lemma map_not_best : let evs := [Event 0 [] 1; Event 0 [0%Z] 1; Event 1 [0; 0]%Z 1] in
  exists s l lk, feed (fun _ => ptwf_update KTB_model 0 ktb_init) 0 (ptwf_init 0 8 ktb_init) evs = Ok (s, l) /\
    run KTB_model ktb_init (skipn 2 evs) = Ok (ptwf_map s, lk) /\
    forall t, t = 2%nat \/ t = 3%nat ->
      posterior KTB_model (fun _ => ktb_init) 0 3 0 evs t 2 < posterior KTB_model (fun _ => ktb_init) 0 3 0 evs t 0.
Proof.
  intros evs. assert (Hev : Forall (ok_event [0; 1]%Z any_hist nonneg) evs).
  { repeat apply Forall_cons; try apply Forall_nil; (split; [cbn; auto|split; [exact I|cbn; unfold nonneg; lra]]). }
  pose proof (law_step _ _ _ _ _ ktb_lawful) as HS.
  destruct (ptwf_recursion KTB_model [0; 1]%Z any_hist nonneg ktb_inv HS (fun _ => ktb_init) (fun _ => ktb_inv_init) 0 8 evs Hev) as (s & l & Hf & _); [cbn; lia|].
  destruct (ptwf_map_best KTB_model (fun _ => ktb_init) 0 [0; 1]%Z any_hist nonneg ktb_inv HS (fun _ => ktb_inv_init) 8 evs s l Hev) as (k & w & lk & Hr & Hi & Hb & _); [cbn; lia|exact Hf|].
  change (fixed_height_of 8 - 0)%nat with 3%nat in *.
  assert (E3 : seq_prob KTB_model ktb_init evs = / 16).
  { unfold evs, ktb_init. rewrite !ktb_seq_0, ktb_seq_1 by lra. cbn [seq_prob]. field. }
  assert (E2 : seq_prob KTB_model ktb_init [Event 0 [] 1; Event 0 [0%Z] 1] = 3 / 8).
  { unfold ktb_init. rewrite !ktb_seq_0 by lra. cbn [seq_prob]. field. }
  assert (E1 : seq_prob KTB_model ktb_init [Event 1 [0; 0]%Z 1] = / 2).
  { unfold ktb_init. rewrite ktb_seq_1 by lra. cbn [seq_prob]. field. }
  assert (E0 : seq_prob KTB_model ktb_init [Event 0 [] 1] = / 2).
  { unfold ktb_init. rewrite ktb_seq_0 by lra. cbn [seq_prob]. field. }
  assert (E0' : seq_prob KTB_model ktb_init [Event 0 [0%Z] 1] = / 2).
  { unfold ktb_init. rewrite ktb_seq_0 by lra. cbn [seq_prob]. field. }
  assert (EP : ptw_prob KTB_model (fun _ => ktb_init) 0 1 0 [Event 0 [] 1; Event 0 [0%Z] 1] = 5 / 16).
  { cbn [ptw_prob Nat.add Nat.pow firstn skipn]. rewrite E2, E0, E0'. lra. }
  assert (Esc : open_scores KTB_model (fun _ => ktb_init) 0 3 0 evs 1 = [(0%nat, / 16); (2%nat, 5 / 64)]).
  { cbn [open_scores length Nat.leb Nat.add Nat.pow Nat.mul evs]. fold evs. cbn [firstn skipn evs]. fold evs.
    cbn [open_scores length Nat.leb Nat.add Nat.pow Nat.mul]. rewrite EP, E3, E1. replace (1 * / 16) with (/ 16) by lra. replace (1 * (/ 2 * (5 / 16)) * / 2) with (5 / 64) by lra. reflexivity. }
  rewrite Esc in Hi, Hb. exists s, l, lk. split; [exact Hf|].
  assert (Hk : k = 2%nat).
  { destruct Hi as [[= <- <-]|[[= <- <-]|[]]]; [|reflexivity]. specialize (Hb 2%nat (5 / 64) (or_intror (or_introl eq_refl))). lra. }
  subst k. split; [exact Hr|].
  assert (Hp2 : forall t, (2 <= t < 4)%nat -> posterior KTB_model (fun _ => ktb_init) 0 3 0 evs t 0 = 3 / 64).
  { intros t Ht. rewrite !post_S, post_0. cbn [Nat.add Nat.pow Nat.mul]. 
    replace (t <? 4)%nat with true by (symmetry; apply Nat.ltb_lt; lia).
    replace (t <? 2)%nat with false by (symmetry; apply Nat.ltb_ge; lia).
    cbn [firstn skipn evs Nat.eqb Nat.add]. fold evs.
    rewrite !ptw_prob_nil, !post_0, E3. cbn [Nat.eqb Nat.add]. destruct (t - 2 <? 1)%nat; lra. }
  assert (Hq2 : forall t, (2 <= t < 4)%nat -> posterior KTB_model (fun _ => ktb_init) 0 3 0 evs t 2 <= 5 / 128).
  { intros t Ht. rewrite !post_S, !post_0. cbn [Nat.add Nat.pow Nat.mul].
    replace (t <? 4)%nat with true by (symmetry; apply Nat.ltb_lt; lia).
    replace (t <? 2)%nat with false by (symmetry; apply Nat.ltb_ge; lia).
    cbn [firstn skipn evs Nat.eqb Nat.add]. fold evs.
    rewrite !ptw_prob_nil, EP, E1. destruct (t - 2 <? 1)%nat; cbn [ptw_prob seq_prob]; rewrite ?E1; lra. }
  intros t Ht. rewrite Hp2 by lia. specialize (Hq2 t ltac:(lia)). lra.
Qed.
