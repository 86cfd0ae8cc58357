(** model.py's CTW and CTW_KT with shared nodes are instances of the engine, so copies behave as
    deep copies. *)
From Coq Require Import Arith FunctionalExtensionality Lra.
From Verif Require Import Model.CTWHeap Model.KT Spec.Objects.
From Verif Require Import Proofs.PyFacts Proofs.HeapFacts Proofs.HeapEngine Proofs.HeapUpdate Proofs.HeapWorld Proofs.ObjectFacts.
From Verif Require Import Proofs.CTWKTFacts.
Open Scope R_scope.

Definition pykey (n : nat) (c : Z) : result nat := py_index (repeat tt n) c.

Lemma pykey_lt n c k : pykey n c = Ok k -> (k < n)%nat.
Proof.
  unfold pykey, py_index. rewrite repeat_length. cbv zeta.
  set (j := if (c <? 0)%Z then (c + Z.of_nat n)%Z else c).
  destruct ((0 <=? j)%Z && (j <? Z.of_nat n)%Z)%bool eqn:E; [|discriminate]. intros H. injection H as <-.
  apply andb_prop in E as [E1 E2]. apply Z.leb_le in E1. apply Z.ltb_lt in E2. lia.
Qed.

Lemma py_index_len {A} (l : list A) c : py_index l c = pykey (length l) c.
Proof. unfold pykey, py_index. rewrite repeat_length. reflexivity. Qed.

Lemma py_get_key {A} (l : list A) c : py_get l c =
  do k <- pykey (length l) c; match nth_error l k with Some x => Ok x | None => Err OutOfBounds end.
Proof.
  unfold py_get. rewrite py_index_len. destruct (pykey (length l) c) as [k|] eqn:E; cbn [bind]; [|reflexivity].
  apply pykey_lt in E. apply nth_error_Some in E. destruct (nth_error l k); [reflexivity|congruence].
Qed.

Lemma put_data_get {D} (h : heap D) p d h' : put_data h p d = Ok h' ->
  exists c, hget h p = Ok c /\ hget h' p = Ok (Cell d (c_kids c) (c_rc c)).
Proof.
  intros H. destruct (at_ h p) as [c|] eqn:E.
  - rewrite (put_data_ok _ _ _ _ E) in H. injection H as <-. exists c. split; [apply hget_ok; exact E|].
    apply hget_ok. apply at_set_same. eapply at_lt. exact E.
  - unfold put_data in H. rewrite hget_at, E in H. discriminate.
Qed.

(** ** CTW with binary contexts *)
Section ctw.
  Context {S : Type} (M : model S) (fresh : S).
  Notation D := (cdata S).
  Definition d0 : D := CData fresh 0 0 0.

  Definition cstep (a : Z) (hist : list Z) (w : R) (d : D) : result D :=
    do (base, l) <- m_update M (d_base d) a hist w; Ok (CData base (d_blp d + l) (d_clp d) (d_lp d)).
  Definition cleaf (d : D) : D * R := (CData (d_base d) (d_blp d) (d_clp d) (d_blp d), d_blp d - d_lp d).
  Definition cnode_ (d : D) (r : R) : D * R :=
    let clp := d_clp d + r in
    let lp := log_0_5 + logsumexp2 (d_blp d) clp in
    (CData (d_base d) (d_blp d) clp lp, lp - d_lp d).
  Definition cpred (a : Z) (hist : list Z) (d : D) : result R := m_logp M (d_base d) a hist.
  Definition cpleaf (d : D) (l : R) : R := d_blp d + l - d_lp d.
  Definition cpnode (d : D) (l r : R) : R := log_0_5 + logsumexp2 (d_blp d + l) (d_clp d + r) - d_lp d.
  Definition cctx (depth a : Z) (hist : list Z) : result (list Z) := Ok (rev (mkcontext depth hist)).

  Lemma h_update_engine a hist w ctx : forall h p,
    (do (h', r, _) <- h_update M fresh ctx h p a hist w; Ok (h', r)) =
    hupd d0 2 pykey (cstep a hist w) cleaf cnode_ ctx h p.
  Proof.
    induction ctx as [|c ctx IH]; intros h p; cbn [h_update hupd];
      (destruct (hget h p) as [cp|] eqn:Hp; cbn [bind]; [|reflexivity]);
      unfold cstep at 1; (destruct (m_update M (d_base (c_data cp)) a hist w) as [[base l]|]; cbn [bind]; [|reflexivity]);
      (destruct (put_data h p _) as [h1|] eqn:E1; cbn [bind]; [|reflexivity]);
      destruct (put_data_get _ _ _ _ E1) as (cp' & Hp' & Hp1); rewrite Hp in Hp'; injection Hp' as <-; rewrite Hp1;
      cbn [bind c_data c_kids d_base d_blp d_clp d_lp].
    - unfold cleaf. cbn [d_base d_blp d_clp d_lp]. destruct (put_data h1 p _) as [h2|]; reflexivity.
    - rewrite py_index_len. destruct (pykey (length (c_kids cp)) c) as [k|] eqn:Ek; cbn [bind]; [|reflexivity].
      rewrite py_get_key, Ek. cbn [bind]. unfold getchild. rewrite Hp1. cbn [bind c_kids].
      destruct (nth_error (c_kids cp) k) as [slot|]; cbn [bind]; [|reflexivity].
      match goal with |- bind (bind ?A ?F) ?K = bind ?B ?G =>
        assert (EB: B = (do (h0, child, _) <- A; Ok (h0, child))) end.
      { destruct slot as [q|].
        - destruct (hget h1 q) as [cc|]; cbn [bind]; [|reflexivity]. destruct (1 <? c_rc cc)%nat; [|reflexivity].
          destruct (decr h1 q) as [h2|]; cbn [bind]; [|reflexivity].
          change (h_copy h2 q) with (hcopy h2 q). destruct (hcopy h2 q) as [[h3 q']|]; cbn [bind]; [|reflexivity].
          destruct (put_kid h3 p k q') as [h4|]; reflexivity.
        - unfold h_new. cbn [halloc]. change (blank d0 2) with (Cell d0 [None; None] 1). unfold d0.
          destruct (put_kid _ p k (length h1)) as [h4|]; reflexivity. }
      rewrite EB. clear EB.
      match goal with |- bind (bind ?X _) _ = _ => destruct X as [[[h2 q] made]|] end; cbn [bind]; [|reflexivity].
      rewrite <- IH. destruct (h_update M fresh ctx h2 q a hist w) as [[[h3 r] more]|]; cbn [bind]; [|reflexivity].
      destruct (hget h3 p) as [c3|]; cbn [bind]; [|reflexivity]. unfold cnode_.
      destruct (put_data h3 p _) as [h4|]; reflexivity.
  Qed.

  Lemma h_predict_engine a hist ctx : forall h p,
    (do (h', r, _) <- h_log_predict M fresh ctx h p a hist; Ok (h', r)) =
    hprd d0 2 pykey (cpred a hist) cpleaf cpnode ctx h p.
  Proof.
    induction ctx as [|c ctx IH]; intros h p; cbn [h_log_predict hprd];
      (destruct (hget h p) as [cp|] eqn:Hp; cbn [bind]; [|reflexivity]);
      unfold cpred at 1; (destruct (m_logp M (d_base (c_data cp)) a hist) as [l|]; cbn [bind]; [|reflexivity]).
    - reflexivity.
    - rewrite py_index_len. destruct (pykey (length (c_kids cp)) c) as [k|] eqn:Ek; cbn [bind]; [|reflexivity].
      rewrite py_get_key, Ek. cbn [bind].
      destruct (nth_error (c_kids cp) k) as [[q|]|]; cbn [bind]; [| |reflexivity].
      + rewrite <- IH. destruct (h_log_predict M fresh ctx h q a hist) as [[[h3 r] more]|]; reflexivity.
      + unfold h_new. cbn [halloc]. change (blank d0 2) with (Cell d0 [None; None] 1). unfold d0 at 1.
        destruct (put_kid _ p k (length h)) as [h4|]; cbn [bind]; [|reflexivity].
        rewrite <- IH. destruct (h_log_predict M fresh ctx h4 (length h) a hist) as [[[h3 r] more]|]; reflexivity.
  Qed.

  (** the world of CTW objects, without sizes *)
  Definition oproj (o : hctw) : Z * ptr := (o_depth o, o_tree o).
  Definition wproj (w : world) : heap D * list (option (Z * ptr)) :=
    (w_heap w, map (option_map oproj) (w_objs w)).

  Definition nodel (h : heap D) (p : ptr) : result (heap D) := Ok h.

  Definition ceng := eng (D := D) d0 2 pykey cctx cstep cleaf cnode_ cpred cpleaf cpnode nodel.
  Definition csep := sep (D := D) d0 2 pykey cctx cstep cleaf cnode_ cpred cpleaf cpnode.

  Lemma obj_proj (w : world (S := S)) i : rrel (fun o x => x = oproj o) (obj w i) (eobj (wproj w) i).
  Proof.
    unfold obj, eobj, wproj. cbn [snd]. rewrite nth_error_map.
    destruct (nth_error (w_objs w) i) as [[o|]|]; cbn; reflexivity.
  Qed.

  Lemma map_set {A B} (f : A -> B) l i x : map f (list_set l i x) = list_set (map f l) i (f x).
  Proof. revert i. induction l as [|y l IH]; intros [|i]; cbn; try reflexivity. f_equal. apply IH. Qed.

  Lemma add_size_proj objs i n : map (option_map oproj) (add_size objs i n) = map (option_map oproj) objs.
  Proof.
    unfold add_size. destruct (nth_error objs i) as [[o|]|] eqn:E; try reflexivity.
    rewrite map_set. apply list_set_nth. rewrite nth_error_map, E. reflexivity.
  Qed.

  Lemma ctw_eng ops w :
    rrel (fun x y => wproj (fst x) = fst y /\ snd x = snd y)
      (orun (w_new fresh) (w_copy (S := S)) (w_del (S := S)) (w_update M fresh) (w_log_predict M fresh) w ops)
      (ceng (wproj w) ops).
  Proof.
    unfold ceng, eng.
    apply (orun_sim (fun w x => wproj w = x)) with (okn := fun _ => True) (oku := fun _ _ _ => True) (okp := fun _ _ => True).
    - intros w1 w2 d <- _. unfold w_new, enew, h_new. cbn [halloc rrel wproj fst]. unfold wproj. cbn [w_heap w_objs].
      rewrite map_app. reflexivity.
    - intros w1 w2 i <-. unfold w_copy, ecopy. eapply rrel_bind; [apply obj_proj|]. intros o x ->.
      cbn [oproj wproj fst]. change (h_copy (w_heap w1) (o_tree o)) with (hcopy (w_heap w1) (o_tree o)).
      destruct (hcopy (w_heap w1) (o_tree o)) as [[h p]|]; cbn [bind rrel]; [|reflexivity].
      unfold wproj. cbn [w_heap w_objs snd]. rewrite map_app. reflexivity.
    - intros w1 w2 i <-. unfold w_del, edel. eapply rrel_bind; [apply obj_proj|]. intros o x ->.
      cbn. unfold wproj. cbn [w_heap w_objs]. rewrite map_set. reflexivity.
    - intros w1 w2 i a h x <- _. unfold w_update, eupd. eapply rrel_bind; [apply obj_proj|]. intros o x0 ->.
      cbn [oproj wproj fst cctx bind]. rewrite <- h_update_engine.
      destruct (h_update M fresh _ (w_heap w1) (o_tree o) a h x) as [[[h' r] made]|]; cbn [bind rrel]; [|reflexivity].
      split; [|reflexivity]. cbn. unfold wproj. cbn. rewrite add_size_proj. reflexivity.
    - intros w1 w2 i a h <- _. unfold w_log_predict, eprd. eapply rrel_bind; [apply obj_proj|]. intros o x0 ->.
      cbn [oproj wproj fst cctx bind]. rewrite <- h_predict_engine.
      destruct (h_log_predict M fresh _ (w_heap w1) (o_tree o) a h) as [[[h' r] made]|]; cbn [bind rrel]; [|reflexivity].
      split; [|reflexivity]. cbn. unfold wproj. cbn. rewrite add_size_proj. reflexivity.
    - reflexivity.
    - apply okop_any.
  Qed.

  (** ** trees as values *)
  Fixpoint tlook (t : cnode S) (path : list nat) : D :=
    match path with
    | [] => CData (c_base t) (c_blp t) (c_clp t) (c_lp t)
    | k :: path' =>
        match dict_get (c_ch t) (Z.of_nat k) with Some t' => tlook t' path' | None => d0 end
    end.

  Lemma tlook_new : tlook (new_node fresh) = fun _ => d0.
  Proof. apply functional_extensionality. intros [|k path]; reflexivity. Qed.

  Lemma tlook_sub t k : (fun path => tlook t (k :: path)) =
    tlook (match dict_get (c_ch t) (Z.of_nat k) with Some x => x | None => new_node fresh end).
  Proof.
    apply functional_extensionality. intros path. cbn [tlook].
    destruct (dict_get (c_ch t) (Z.of_nat k)); [reflexivity|]. rewrite tlook_new. reflexivity.
  Qed.

  Lemma node_update_fupd a hist w ctx : forall t,
    rrel (fun x y => tlook (fst (fst x)) = fst y /\ snd (fst x) = snd y)
      (node_update M fresh true ctx t a hist w) (fupd 2 pykey (cstep a hist w) cleaf cnode_ ctx (tlook t)).
  Proof.
    induction ctx as [|c ctx IH]; intros [base blp clp lp ch]; cbn [node_update fupd tlook c_base c_blp c_clp c_lp];
      unfold cstep at 1; cbn [d_base d_blp d_clp d_lp];
      (destruct (m_update M base a hist w) as [[base' l]|]; cbn [bind]; [|reflexivity]).
    - cbn. split; [|reflexivity]. apply functional_extensionality. intros [|k path]; reflexivity.
    - unfold child_key. change (py_index [tt; tt] c) with (pykey 2 c).
      destruct (pykey 2 c) as [k|]; cbn [bind]; [|reflexivity].
      match goal with |- context [fupd _ _ _ _ _ ctx ?f] =>
        change f with (fun path => tlook (CNode base blp clp lp ch) (k :: path)) end.
      rewrite tlook_sub. cbn [c_ch].
      set (child := match dict_get ch (Z.of_nat k) with Some x => x | None => new_node fresh end).
      assert (E: exists made, match dict_get ch (Z.of_nat k) with Some x => (x, 0%nat) | None => (new_node fresh, 1%nat) end = (child, made)).
      { unfold child. destruct (dict_get ch (Z.of_nat k)); eexists; reflexivity. }
      destruct E as [made E]. rewrite E. specialize (IH child).
      destruct (node_update M fresh true ctx child a hist w) as [[[t' r] more]|], (fupd 2 pykey _ _ _ ctx (tlook child)) as [[g r']|];
        cbn in IH; try contradiction; cbn [bind]; [|exact IH].
      destruct IH as [<- <-]. cbn. split; [|reflexivity].
      apply functional_extensionality. intros [|k' path]; [reflexivity|]. cbn [tlook c_ch].
      destruct (Nat.eq_dec k' k) as [->|Hne].
      + rewrite dict_get_set_same. reflexivity.
      + rewrite dict_get_set_other by lia. reflexivity.
  Qed.

  Lemma node_predict_fprd a hist ctx : forall t,
    rrel (fun x y => tlook (fst (fst x)) = tlook t /\ snd (fst x) = y)
      (node_log_predict M fresh true ctx t a hist) (fprd 2 pykey (cpred a hist) cpleaf cpnode ctx (tlook t)).
  Proof.
    induction ctx as [|c ctx IH]; intros [base blp clp lp ch]; cbn [node_log_predict fprd tlook c_base c_blp c_clp c_lp];
      unfold cpred at 1; cbn [d_base d_blp d_clp d_lp];
      (destruct (m_logp M base a hist) as [l|]; cbn [bind]; [|reflexivity]).
    - cbn. split; reflexivity.
    - unfold child_key. change (py_index [tt; tt] c) with (pykey 2 c).
      destruct (pykey 2 c) as [k|]; cbn [bind]; [|reflexivity].
      match goal with |- context [fprd _ _ _ _ _ ctx ?f] =>
        change f with (fun path => tlook (CNode base blp clp lp ch) (k :: path)) end.
      pose proof (tlook_sub (CNode base blp clp lp ch) k) as TS. rewrite TS. cbn [c_ch] in *.
      set (child := match dict_get ch (Z.of_nat k) with Some x => x | None => new_node fresh end) in *.
      assert (E: exists made, match dict_get ch (Z.of_nat k) with Some x => (x, 0%nat) | None => (new_node fresh, 1%nat) end = (child, made)).
      { unfold child. destruct (dict_get ch (Z.of_nat k)); eexists; reflexivity. }
      destruct E as [made E]. rewrite E. specialize (IH child).
      destruct (node_log_predict M fresh true ctx child a hist) as [[[t' r] more]|], (fprd 2 pykey _ _ _ ctx (tlook child)) as [r'|];
        cbn in IH; try contradiction; cbn [bind]; [|exact IH].
      destruct IH as [Ht <-]. cbn. split; [|reflexivity].
      apply functional_extensionality. intros [|k' path]; [reflexivity|].
      destruct (Nat.eq_dec k' k) as [->|Hne].
      + rewrite (f_equal (fun f => f path) TS). cbn [tlook c_ch]. rewrite dict_get_set_same. rewrite Ht. reflexivity.
      + cbn [tlook c_ch]. rewrite dict_get_set_other by lia. reflexivity.
  Qed.

  Lemma ctw_sep ops :
    returned (deep_run (ctw_init fresh) (ctw_update M fresh true) (ctw_log_predict M fresh true) ops) =
    returned (csep [] ops).
  Proof.
    unfold csep, sep. fold (deep_run (fnew d0) (fup (D := D) 2 pykey cctx cstep cleaf cnode_) (fpr (D := D) 2 pykey cctx cpred cpleaf cpnode) ops).
    apply (deep_sim (fun (s : ctw) (o : Z * (list nat -> D)) => ctw_depth s = fst o /\ tlook (ctw_tree s) = snd o))
      with (okn := fun _ => True) (oku := fun _ _ _ => True) (okp := fun _ _ => True).
    - intros d _. cbn. split; [reflexivity|apply tlook_new].
    - intros s [d f] a h x [H1 H2] _. cbn [fst snd] in *. subst d f. unfold ctw_update, ctw_update_with, fup, cctx. cbn [bind].
      pose proof (node_update_fupd a h x (rev (mkcontext (ctw_depth s) h)) (ctw_tree s)) as U.
      destruct (node_update M fresh true _ (ctw_tree s) a h x) as [[[t r] made]|], (fupd 2 pykey _ _ _ _ (tlook (ctw_tree s))) as [[g r']|];
        cbn in U; try contradiction; cbn [bind rrel]; [|exact U].
      destruct U as [<- <-]. cbn. unfold rsame; cbn; auto.
    - intros s [d f] a h [H1 H2] _. cbn [fst snd] in *. subst d f. unfold ctw_log_predict, ctw_log_predict_with, fpr, cctx. cbn [bind].
      pose proof (node_predict_fprd a h (rev (mkcontext (ctw_depth s) h)) (ctw_tree s)) as U.
      destruct (node_log_predict M fresh true _ (ctw_tree s) a h) as [[[t r] made]|], (fprd 2 pykey _ _ _ _ (tlook (ctw_tree s))) as [r'|];
        cbn in U; try contradiction; cbn [bind rrel]; [|exact U].
      destruct U as [Ht <-]. cbn. unfold rsame; cbn; auto.
    - apply okop_any.
  Qed.

  Lemma nodel_ok : forall h e rk p c, wf0 2 h e rk -> pos h -> (forall x, (0 <= e x)%Z) ->
    at_ h p = Some c -> c_rc c = 1%nat -> (1 <= e p)%Z ->
    exists h' rk', nodel h p = Ok h' /\
      wf0 2 h' (fun x => e x - (if false then delta p x else 0))%Z rk' /\ pos h' /\
      forall z cz, z <> p -> (1 <= e z)%Z -> at_ h z = Some cz -> c_rc cz = 1%nat ->
        look d0 h' z = look d0 h z /\ exists cz', at_ h' z = Some cz' /\ c_rc cz' = 1%nat.
  Proof.
    intros h e rk p c W P He Hc Hr Hp. exists h, rk. split; [reflexivity|].
    split; [eapply wf0_ext_eq; [|exact W]; intros; cbv beta; lia|]. split; [exact P|].
    intros z cz _ _ Hz Hrz. split; [reflexivity|]. exists cz. auto.
  Qed.

  (** Copies of a CTW with binary contexts behave as deep copies. *)
  Theorem ctw_copies ops :
    returned (orun (w_new fresh) (w_copy (S := S)) (w_del (S := S)) (w_update M fresh) (w_log_predict M fresh)
                (World [] []) ops) =
    returned (deep_run (ctw_init fresh) (ctw_update M fresh true) (ctw_log_predict M fresh true) ops).
  Proof.
    rewrite ctw_sep.
    destruct (world_returned d0 2 pykey pykey_lt cctx cstep cleaf cnode_ cpred cpleaf cpnode nodel false nodel_ok ops) as [E _].
    unfold csep. rewrite <- E. clear E.
    pose proof (ctw_eng ops (World [] [])) as H. unfold ceng, wproj in H. cbn [w_heap w_objs map] in H.
    destruct (orun _ _ _ _ _ _ ops) as [[w rs]|], (eng _ _ _ _ _ _ _ _ _ _ _ _ ops) as [[w' rs']|]; cbn in *; try contradiction; [|congruence].
    destruct H as [_ ->]. reflexivity.
  Qed.
End ctw.
