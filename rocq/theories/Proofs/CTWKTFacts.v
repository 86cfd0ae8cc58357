(** CTW_KT returns what CTW with its defaults returns: same values, same exceptions. *)
From Coq Require Import Lra.
From Verif Require Import Model.CTW Model.KT Spec.Ops.
From Verif Require Import Proofs.RealFacts Proofs.PyFacts.
Open Scope R_scope.

Inductive ksim : knode -> cnode ktb -> Prop :=
| KSim c0 c1 blp clp lp o0 o1 ch :
    osim o0 (dict_get ch 0) -> osim o1 (dict_get ch 1) ->
    ksim (KNode c0 c1 blp clp lp o0 o1) (CNode [c0; c1] blp clp lp ch)
with osim : option knode -> option (cnode ktb) -> Prop :=
| ONone : osim None None
| OSome k n : ksim k n -> osim (Some k) (Some n).

Lemma ksim_new : ksim new_knode (new_node ktb_init).
Proof. constructor; constructor. Qed.

Lemma bit_cases i :
  (exists b : bool, bit_index i = Ok b /\ child_key true i = Ok (if b then 1 else 0)%Z /\
     (forall x y : R, py_get [x; y] i = Ok (if b then y else x)) /\
     (forall x y z : R, py_set [x; y] i z = Ok (if b then [x; z] else [z; y]))) \/
  (bit_index i = Err IndexError /\ child_key true i = Err IndexError /\
     (forall x y : R, py_get [x; y] i = Err IndexError)).
Proof.
  assert (E: forall A (x y : A), py_index [x; y] i = py_index [tt; tt] i) by reflexivity.
  unfold bit_index, child_key, py_get, py_set. 
  destruct (py_index [tt; tt] i) as [k|e] eqn:Hk; cbn [bind].
  - assert (Hk2: k = 0%nat \/ k = 1%nat).
    { unfold py_index in Hk. cbn [length] in Hk.
      destruct (((0 <=? (if i <? 0 then i + Z.of_nat 2 else i)) && ((if i <? 0 then i + Z.of_nat 2 else i) <? Z.of_nat 2)))%Z eqn:Hc; [|discriminate].
      injection Hk as <-. apply andb_prop in Hc as [Hc1 Hc2]. apply Z.leb_le in Hc1. apply Z.ltb_lt in Hc2.
      destruct (i <? 0)%Z; lia. }
    left. destruct Hk2 as [-> | ->]; [exists false|exists true]; (split; [reflexivity|]); (split; [reflexivity|]);
      split; intros; rewrite (E R); reflexivity.
  - assert (He: e = IndexError).
    { unfold py_index in Hk. destruct (_ && _) in Hk; [discriminate|]. injection Hk as <-. reflexivity. }
    right. subst e. split; [reflexivity|]. split; [reflexivity|]. intros x y. rewrite (E R). reflexivity.
Qed.

(** Both base updates: same value or same exception. *)
Lemma base_eq c0 c1 sym h w :
  ktb_log_predict [c0; c1] sym h =
    (do b <- bit_index sym; do q <- py_div (if b then c1 else c0) (c0 + c1); py_log q) /\
  ktb_update [c0; c1] sym h w =
    (do b <- bit_index sym; do q <- py_div (if b then c1 else c0) (c0 + c1); do l <- py_log q;
     Ok ([if b then c0 else c0 + w; if b then c1 + w else c1], l)).
Proof.
  unfold ktb_update, ktb_log_predict. rewrite py_get2_0, py_get2_1.
  destruct (bit_cases sym) as [(b & -> & _ & Hg & Hs)|(-> & _ & Hg)]; rewrite Hg; cbn [bind]; [|split; reflexivity].
  split; [reflexivity|]. destruct (py_div _ _) as [q|]; cbn [bind]; [|reflexivity].
  destruct (py_log q) as [l|]; cbn [bind]; [|reflexivity]. rewrite Hs. destruct b; reflexivity.
Qed.

Definition rsim {A B C : Type} (Rst : A -> B -> Prop) (x : result (prod A R)) (y : result (prod (prod B R) C)) : Prop :=
  match x, y with
  | Ok (a, r), Ok (b, r', _) => r = r' /\ Rst a b
  | Err e, Err e' => e = e'
  | _, _ => False
  end.

Lemma child_sim (o0 o1 : option knode) (ch : dict (cnode ktb)) (b : bool) :
  osim o0 (dict_get ch 0) -> osim o1 (dict_get ch 1) ->
  exists child made,
    match dict_get ch (if b then 1 else 0)%Z with Some x => (x, 0%nat) | None => (new_node ktb_init, 1%nat) end = (child, made) /\
    ksim (match (if b then o1 else o0) with Some x => x | None => new_knode end) child.
Proof.
  intros H0 H1. destruct b.
  - inversion H1 as [Ha Hb|k n Hs Ha Hb]; do 2 eexists; (split; [reflexivity|]); [apply ksim_new|exact Hs].
  - inversion H0 as [Ha Hb|k n Hs Ha Hb]; do 2 eexists; (split; [reflexivity|]); [apply ksim_new|exact Hs].
Qed.

Lemma ksim_set (o0 o1 : option knode) (ch : dict (cnode ktb)) (b : bool) kc nc :
  osim o0 (dict_get ch 0) -> osim o1 (dict_get ch 1) -> ksim kc nc ->
  osim (if b then o0 else Some kc) (dict_get (dict_set ch (if b then 1 else 0)%Z nc) 0) /\
  osim (if b then Some kc else o1) (dict_get (dict_set ch (if b then 1 else 0)%Z nc) 1).
Proof.
  intros H0 H1 Hs. destruct b; split.
  - rewrite dict_get_set_other by discriminate. exact H0.
  - rewrite dict_get_set_same. constructor; exact Hs.
  - rewrite dict_get_set_same. constructor; exact Hs.
  - rewrite dict_get_set_other by discriminate. exact H1.
Qed.

Lemma knode_update_sim c : forall k n sym h w, ksim k n ->
  rsim ksim (knode_update c k sym w) (node_update KTB_model ktb_init true c n sym h w).
Proof.
  induction c as [|x c IH]; intros k n sym h w Hs; inversion Hs as [c0 c1 blp clp lp o0 o1 ch H0 H1]; subst;
    cbn [knode_update node_update KTB_model m_update];
    destruct (base_eq c0 c1 sym h w) as [_ ->];
    (destruct (bit_index sym) as [b|e]; cbn [bind]; [|reflexivity]);
    (destruct (py_div _ _) as [q|e]; cbn [bind]; [|reflexivity]);
    (destruct (py_log q) as [l|e]; cbn [bind]; [|reflexivity]).
  - cbn [rsim]. split; [reflexivity|]. constructor; assumption.
  - destruct (bit_cases x) as [(i & -> & -> & _)|(-> & -> & _)]; cbn [bind]; [|reflexivity].
    destruct (child_sim o0 o1 ch i H0 H1) as (child & made & -> & Hc).
    specialize (IH _ _ sym h w Hc). unfold KTB_model in IH at 1.
    destruct (knode_update c _ sym w) as [[kc r]|e]; destruct (node_update _ _ _ _ child _ _ _) as [[[nc r'] more]|e'];
      cbn [rsim bind] in *; try contradiction; [|exact IH].
    destruct IH as [<- Hc']. split; [reflexivity|].
    destruct (ksim_set o0 o1 ch i kc nc H0 H1 Hc') as [G0 G1]. constructor; assumption.
Qed.

Lemma knode_log_predict_sim c : forall k n sym h, ksim k n ->
  rsim ksim (knode_log_predict c k sym) (node_log_predict KTB_model ktb_init true c n sym h).
Proof.
  induction c as [|x c IH]; intros k n sym h Hs; pose proof Hs as Hs0; inversion Hs as [c0 c1 blp clp lp o0 o1 ch H0 H1]; subst;
    cbn [knode_log_predict node_log_predict KTB_model m_logp];
    destruct (base_eq c0 c1 sym h 0) as [-> _];
    (destruct (bit_index sym) as [b|e]; cbn [bind]; [|reflexivity]);
    (destruct (py_div _ _) as [q|e]; cbn [bind]; [|reflexivity]);
    (destruct (py_log q) as [l|e]; cbn [bind]; [|reflexivity]).
  - cbn [rsim]. split; [reflexivity|]. exact Hs0.
  - destruct (bit_cases x) as [(i & -> & -> & _)|(-> & -> & _)]; cbn [bind]; [|reflexivity].
    destruct (child_sim o0 o1 ch i H0 H1) as (child & made & -> & Hc).
    specialize (IH _ _ sym h Hc). unfold KTB_model in IH at 1.
    destruct (knode_log_predict c _ sym) as [[kc r]|e]; destruct (node_log_predict _ _ _ _ child _ _) as [[[nc r'] more]|e'];
      cbn [rsim bind] in *; try contradiction; [|exact IH].
    destruct IH as [<- Hc']. split; [reflexivity|].
    destruct (ksim_set o0 o1 ch i kc nc H0 H1 Hc') as [G0 G1]. constructor; assumption.
Qed.

Definition ctwkt_sim (k : ctwkt) (s : ctw (S := ktb)) : Prop :=
  ck_depth k = ctw_depth s /\ ksim (ck_tree k) (ctw_tree s).

Lemma ctwkt_op_sim o k s : ctwkt_sim k s ->
  match do_op ctwkt_update ctwkt_log_predict k o,
        do_op (ctw_update KTB_model ktb_init true) (ctw_log_predict KTB_model ktb_init true) s o with
  | Ok (k', r), Ok (s', r') => r = r' /\ ctwkt_sim k' s'
  | Err e, Err e' => e = e'
  | _, _ => False
  end.
Proof.
  intros [Hd Hs]. destruct o as [a h w|a h]; cbn [do_op];
    unfold ctwkt_update, ctw_update, ctw_update_with, ctwkt_log_predict, ctw_log_predict, ctw_log_predict_with; rewrite Hd.
  - pose proof (knode_update_sim (rev (mkcontext (ctw_depth s) h)) _ _ a h w Hs) as H.
    destruct (knode_update _ _ _ _) as [[k' r]|e]; destruct (node_update _ _ _ _ _ _ _ _) as [[[n' r'] m]|e'];
      cbn [rsim bind] in *; try contradiction; [|exact H]. destruct H as [-> H]. split; [reflexivity|]. split; [reflexivity|exact H].
  - pose proof (knode_log_predict_sim (rev (mkcontext (ctw_depth s) h)) _ _ a h Hs) as H.
    destruct (knode_log_predict _ _ _) as [[k' r]|e]; destruct (node_log_predict _ _ _ _ _ _ _) as [[[n' r'] m]|e'];
      cbn [rsim bind] in *; try contradiction; [|exact H]. destruct H as [-> H]. split; [reflexivity|]. split; [reflexivity|exact H].
Qed.

Lemma ctwkt_exec_sim ops k s : ctwkt_sim k s ->
  (do (_, rs) <- exec ctwkt_update ctwkt_log_predict k ops; Ok rs) =
  (do (_, rs) <- exec (ctw_update KTB_model ktb_init true) (ctw_log_predict KTB_model ktb_init true) s ops; Ok rs).
Proof.
  revert k s; induction ops as [|o ops IH]; intros k s Hs; cbn [exec]; [reflexivity|].
  pose proof (ctwkt_op_sim o k s Hs) as H.
  destruct (do_op ctwkt_update ctwkt_log_predict k o) as [[k' r]|e];
    destruct (do_op (ctw_update _ _ _) _ s o) as [[s' r']|e']; cbn [bind]; try contradiction; [|subst; reflexivity].
  destruct H as [-> H]. specialize (IH k' s' H).
  destruct (exec ctwkt_update ctwkt_log_predict k' ops) as [[? ?]|]; destruct (exec (ctw_update _ _ _) _ s' ops) as [[? ?]|];
    cbn [bind] in *; congruence.
Qed.

Lemma ctwkt_is_ctw depth ops :
  (do (_, rs) <- exec ctwkt_update ctwkt_log_predict (ctwkt_init depth) ops; Ok rs) =
  (do (_, rs) <- exec (ctw_update KTB_model ktb_init true) (ctw_log_predict KTB_model ktb_init true) (ctw_init ktb_init depth) ops; Ok rs).
Proof. apply ctwkt_exec_sim. split; [reflexivity|apply ksim_new]. Qed.
