(** The directories of entered Experiments, and what goes wrong. *)
From Verif Require Import Proofs.DictFacts Proofs.PyFacts Proofs.ParamsFacts Proofs.StrFacts Proofs.PathFacts Proofs.StructuresFacts Proofs.StructuresRead
  Proofs.StructuresTop Proofs.StructuresNeg Proofs.NestedFacts Proofs.NestedRead Proofs.NestedTop Proofs.NestedNeg Proofs.RecordsFacts Proofs.StructLogsFacts
  Proofs.StructLogsExt Proofs.StructLogsTop Spec.ExperimentsSpec Proofs.ExperimentsFacts Proofs.ExperimentsModel.
Open Scope Z_scope.

Lemma norm_plain_end r : forall cs acc, Forall plain cs -> norm_comps r acc (cs ++ [[]]) = rev acc ++ cs.
Proof.
  induction cs as [|c cs IH]; intros acc HF; cbn [norm_comps app]; [cbn [streq orb norm_comps]; now rewrite app_nil_r|].
  inversion HF as [|? ? (P1 & P2 & P3 & P4) HF']; subst.
  assert (E1 : forall t, c <> t -> streq c t = false).
  { intros t N. apply not_true_is_false. now rewrite streq_spec. }
  rewrite !E1 by assumption. cbn [orb negb]. rewrite IH by exact HF'. cbn [rev]. now rewrite <- app_assoc.
Qed.
Lemma norm_path_end r cs : Forall plain cs -> cs <> [] -> normpath (path_text r cs ++ [slash]) = path_text r cs.
Proof.
  intros HF Hne. destruct (join_first cs HF Hne) as (a & s & E & Na).
  assert (Ea : (a =? slash) = false) by now apply Z.eqb_neq.
  assert (Es : split slash (a :: s ++ [slash]) = cs ++ [[]]).
  { change (a :: s ++ [slash]) with ((a :: s) ++ [slash]). rewrite <- E.
    replace (join [slash] cs ++ [slash]) with (join [slash] (cs ++ [[]])).
    - apply split_join; [intros H; apply app_eq_nil in H; now destruct H|]. apply Forall_app. split; [now apply plain_noslash|]. constructor; [intros []|constructor].
    - rewrite join_app by (assumption || discriminate). reflexivity. }
  unfold path_text. destruct r; cbn [app]; rewrite E; cbn [app].
  - assert (Ep : split slash (slash :: a :: s ++ [slash]) = [] :: cs ++ [[]]).
    { cbn [split] in Es |- *. rewrite Z.eqb_refl. now rewrite Es. }
    unfold normpath. rewrite Ep.
    assert (N : norm_comps true [] ([] :: cs ++ [[]]) = cs).
    { cbn [norm_comps streq orb]. rewrite norm_plain_end by exact HF. reflexivity. }
    destruct (s ++ [slash]) as [|b s']; rewrite Z.eqb_refl, Ea; cbn [andb Nat.eqb negb repeat app]; rewrite N, E; reflexivity.
  - unfold normpath. rewrite Es.
    assert (N : norm_comps false [] (cs ++ [[]]) = cs) by (rewrite norm_plain_end by exact HF; reflexivity).
    destruct (s ++ [slash]) as [|b [|c s']]; rewrite ?Ea; cbn [Nat.eqb negb repeat app]; rewrite N, E; reflexivity.
Qed.
Lemma join_empty r cs : Forall plain cs -> cs <> [] -> path_join2 (path_text r cs) [] = path_text r cs ++ [slash].
Proof.
  intros HF Hne. destruct (plain_last cs HF Hne) as (s & x & E & Nx). unfold path_join2, path_text. cbn [starts_with]. rewrite E.
  assert (Ee : ends_with slash ((if r then [slash] else []) ++ s ++ [x]) = false).
  { unfold ends_with. rewrite app_assoc, rev_app_distr. cbn. now apply Z.eqb_neq. }
  destruct ((if r then [slash] else []) ++ s ++ [x]) as [|y l] eqn:El; [destruct r, s; discriminate|]. now rewrite Ee.
Qed.

Lemma no_key_string members b : shows_structs members b -> get_nonpos_string (own_attrs b) (own_fields members) = Ok [].
Proof.
  intros H.
  assert (HL : nonpos_loop (own_attrs b) (own_fields members) None [] = Ok (None, [])).
  { assert (HF : forall f, In f (own_fields members) -> f_transient f = true \/ (get_value b (f_name f) = None /\ f_required f = false)).
    { intros f Hf. apply own_in in Hf. exact (H _ Hf). }
    revert HF. generalize (own_fields members). induction l as [|f l IH]; intros HF; [reflexivity|]. cbn [nonpos_loop].
    destruct (HF f (or_introl eq_refl)) as [->|[E1 E2]]; cbn [orb]; [apply IH; intros; apply HF; now right|].
    destruct (f_transient f || f_positional f); [apply IH; intros; apply HF; now right|]. unfold get_value in E1. rewrite E1, E2.
    apply IH; intros; apply HF; now right. }
  unfold get_nonpos_string. now rewrite HL.
Qed.

Definition comps_ok (c : list pystr) : Prop := c <> [] /\ Forall plain c.
Lemma comps_concat dss : Forall comps_ok dss -> Forall plain (concat dss).
Proof. induction 1 as [|c dss [_ H] _ IH]; cbn [concat]; [constructor|]. apply Forall_app. now split. Qed.
Lemma fold_parts r : forall dss cs, Forall plain cs -> Forall comps_ok dss ->
  fold_left path_join2 (map (path_text false) dss) (path_text r cs) = path_text r (cs ++ concat dss).
Proof.
  induction dss as [|c dss IH]; intros cs HC HD; cbn [map fold_left concat]; [now rewrite app_nil_r|].
  inversion HD as [|? ? [D1 D2] D3]; subst. rewrite join_path by assumption. rewrite IH; [now rewrite app_assoc|now apply Forall_app|exact D3].
Qed.

Section last.
  Variable experiment : list member -> list pystr -> bool.

  Lemma walk_last b r : forall l cs, Forall plain cs -> cs <> [] -> shows_structs l b -> walked experiment (path_text r cs) l b ->
    exists dss, Forall comps_ok dss /\ member_strings l b = Ok (map (path_text false) dss) /\
      forall l' n req k p t ms inh z, l = l' ++ [MStruct n req k p t (Some (ms, inh))] -> gd_get streq b n = Some (SInst z) ->
        dss <> [] /\ log_path ms z = Ok (path_text r (cs ++ concat dss)).
  Proof.
    induction l as [|m l IH]; intros cs HC Hne HS HW.
    { exists []. split; [constructor|]. split; [reflexivity|]. intros l' n req k p t ms inh z E. now destruct l'. }
    assert (HS' : shows_structs l b) by (intros x Hx; apply HS; now right). pose proof (HS m (or_introl eq_refl)) as Hm.
    inversion HW as [|? ? ? ? W1|? ? ? ? ? ? ? ? ? W1 W2|? here n req k p t ms inh ? ? z e W1 W2 W3 W4 W5 W6]; subst.
    - destruct (IH cs HC Hne HS' W1) as (dss & D1 & D2 & D3). exists dss. split; [exact D1|]. split.
      + cbn [member_strings member_string]. rewrite D2. destruct Hm as [->|[E1 E2]]; cbn [orb bind]; [reflexivity|].
        destruct (f_transient f || negb (f_positional f)); cbn [bind]; [reflexivity|]. unfold get_value in E1. now rewrite E1, E2.
      + intros l' n req k p t ms inh z E. destruct l' as [|x l']; [discriminate|]. injection E as _ E. now apply D3 with (1 := E).
    - destruct Hm as (_ & _ & ms & inh & z & c & _ & E & _). congruence.
    - destruct Hm as (-> & Hn & ms' & inh' & z' & c & E1 & E2 & E3 & C1 & C2). injection E1 as <- <-.
      assert (z' = z) by congruence. subst z'. assert (e = path_text false c) by congruence. subst e.
      set (pre := if k then [n] else []).
      assert (HP : Forall plain pre) by (unfold pre; destruct k; [now constructor|constructor]).
      assert (EN : forall x, path_text false [x] = x) by reflexivity.
      assert (EH : (if k then normpath (path_join2 (path_text r cs) n) else path_text r cs) = path_text r (cs ++ pre)).
      { unfold pre. destruct k; [|now rewrite app_nil_r]. rewrite <- (EN n) at 1. rewrite join_path; [|exact HC|now constructor|discriminate].
        apply norm_path; [apply Forall_app; split; [exact HC|now constructor]|]. intros H. apply app_eq_nil in H. now destruct H. }
      rewrite EH in *. rewrite join_path in W6; [|apply Forall_app; now split|exact C2|exact C1].
      destruct (IH ((cs ++ pre) ++ c)) as (dss & D1 & D2 & D3); [..|exact HS'|exact W6|].
      { apply Forall_app. split; [apply Forall_app; now split|exact C2]. } { intros H. apply app_eq_nil in H. now destruct H. }
      exists ((pre ++ c) :: dss). split; [|split].
      + constructor; [|exact D1]. split; [intros H; apply app_eq_nil in H; now destruct H|apply Forall_app; now split].
      + cbn [member_strings]. rewrite member_string_struct, W1, W4. cbn [bind]. rewrite D2. cbn [bind map]. f_equal. f_equal.
        unfold pre. destruct k; [|reflexivity]. rewrite <- (EN n) at 1. now rewrite join_path; [|constructor; [exact Hn|constructor]|..].
      + intros l' n' req' k' p' t' ms' inh' z' E Ez. destruct l' as [|x l'].
        * injection E as <- <- <- <- <- <- <- El. subst l. cbn in D2. injection D2 as D2. destruct dss; [|discriminate]. split; [discriminate|].
          assert (z' = z) by congruence. subst z'. rewrite (log_path_ok _ _ _ _ W3 W4). cbn [concat]. rewrite app_nil_r.
          rewrite join_path; [now rewrite <- app_assoc|apply Forall_app; now split|exact C2|exact C1].
        * injection E as _ E. destruct (D3 _ _ _ _ _ _ _ _ _ E Ez) as [_ D4]. split; [discriminate|]. rewrite D4. cbn [concat]. now rewrite <- !app_assoc.
  Qed.

  (** The last Structure logs where the Experiment itself does. *)
  Theorem last_dir members b base l n req k p t ms inh z : entered experiment members b -> shows_structs members b ->
    get_value b (lit "base_dir") = Some (VStr base) -> normal_dir base -> base <> [] -> base <> [slash] ->
    members = l ++ [MStruct n req k p t (Some (ms, inh))] -> gd_get streq b n = Some (SInst z) ->
    log_path ms z = log_path members b.
  Proof.
    intros HE HS HB (r & Y & EY & HY) N1 N2 EM Ez. inversion HE as [? ? d s E1 E2 E3]; subst members0 b0.
    assert (d = base) by congruence. subst d. rewrite (no_key_string _ _ HS) in E2. injection E2 as <-.
    assert (Hne : Y <> []) by (intros ->; destruct r; [now apply N2|now apply N1]).
    rewrite EY, join_empty, norm_path_end in E3 by assumption.
    destruct (walk_last b r members Y HY Hne HS E3) as (dss & D1 & D2 & D3). destruct (D3 _ _ _ _ _ _ _ _ _ EM Ez) as [D4 D5].
    rewrite D5. symmetry.
    assert (NS : nested_string members b = Ok (path_text false (concat dss))).
    { unfold nested_string. rewrite D2. cbn [bind]. unfold string_of_parts. rewrite (no_key_string _ _ HS). cbn [bind].
      destruct dss as [|c dss]; [congruence|]. cbn [map]. unfold path_join. inversion D1 as [|? ? [C1 C2] C3]; subst.
      now rewrite fold_parts by assumption. }
    rewrite (log_path_ok _ _ _ _ HB NS), EY. rewrite join_path; [reflexivity|exact HY|now apply comps_concat|].
    destruct dss as [|c dss]; [congruence|]. inversion D1 as [|? ? [C1 C2] C3]; subst. cbn [concat]. intros H. apply app_eq_nil in H. now destruct H.
  Qed.
End last.

(** ** An example *)
Definition base_seed := [lit "base_dir"; lit "seed"].
Definition leaf_class := [just (text_field "kind")].
Definition agent_class := [just (named "depth" CInt)].
Definition trial_class := [meant "env" true leaf_class base_seed; declared "agent" true agent_class [lit "base_dir"; lit "input_dim"]].
Definition study_class := [just (named "seed" CInt); declared "trial" true trial_class base_seed].
(** whatever holds Structures is an Experiment *)
Definition holds_some (ms : list member) (_ : list pystr) : bool := existsb (fun m => match m with MStruct _ _ _ _ _ _ => true | MField _ => false end) ms.
Definition leaf := [value "kind" (VStr (lit "tree")); value "output_dim" (VInt 3)].
Definition agent := [value "depth" (VInt 48)].
Definition trial := [holds "env" leaf; holds "agent" agent].
Definition study := [value "seed" (VInt 5); holds "trial" trial; value "base_dir" (VStr (lit "/data"))].

Ltac names := intros; cbn in *; intuition (subst; discriminate).
Lemma ready_trial : ready holds_some base_seed trial_class trial.
Proof.
  eapply Ready; [vm_compute; reflexivity| |names|names|].
  { constructor; [names|]. constructor; [intros []|constructor]. }
  intros m [<-|[<-|[]]].
  - eapply ReadyStruct; [vm_compute; reflexivity|vm_compute; reflexivity|now left|names| |intros H; vm_compute in H; discriminate].
    intros x [<-|[<-|[]]]; [now left|]. right. right. left. right. now left.
  - eapply ReadyStruct; [vm_compute; reflexivity|vm_compute; reflexivity|now left|names| |intros H; vm_compute in H; discriminate].
    intros x [<-|[<-|[]]]; [now left|]. right. now left.
Qed.
Lemma ready_study : ready holds_some [] study_class study.
Proof.
  eapply Ready; [vm_compute; reflexivity| |names|names|].
  { constructor; [names|]. constructor; [intros []|constructor]. }
  intros m [<-|[<-|[]]]; [constructor|].
  eapply ReadyStruct; [vm_compute; reflexivity|vm_compute; reflexivity|now left|names| |intros _; apply ready_trial].
  intros x [<-|[<-|[]]]; [now left|]. right. right. right. discriminate.
Qed.
(** where the parts of an instance lie *)
Definition at_path (path : list string) (a : sattrs) : option sattrs :=
  fold_left (fun o n => match o with Some x => match gd_get streq x (lit n) with Some (SInst y) => Some y | _ => None end | None => None end) path (Some a).
Definition dir_of (ms : list member) (o : option sattrs) : option pystr :=
  match o with Some x => match log_path ms x with Ok p => Some p | Err _ => None end | None => None end.
Lemma study_ex : ready holds_some [] study_class study /\ get_value study (lit "base_dir") = Some (VStr (lit "/data")) /\
  let b := fst (enter_exp holds_some study_class study) in
  dir_of leaf_class (at_path ["trial"; "env"]%string b) = Some (lit "/data/seed-5/trial/tree") /\
  dir_of agent_class (at_path ["trial"; "agent"]%string b) = Some (lit "/data/seed-5/trial/tree/agent/depth-48") /\
  match at_path ["trial"; "agent"]%string b with Some x => get_value x (lit "input_dim") | None => None end = Some (VInt 3).
Proof. split; [exact ready_study|]. repeat apply conj; vm_compute; reflexivity. Qed.

(** the trial alone *)
Definition lone_trial := trial ++ [value "seed" (VInt 5); value "base_dir" (VStr (lit "/data"))].
Lemma last_ex : let b := fst (enter_exp holds_some trial_class lone_trial) in
  entered holds_some trial_class b /\ shows_structs trial_class b /\ get_value b (lit "base_dir") = Some (VStr (lit "/data")) /\ normal_dir (lit "/data").
Proof.
  assert (HR : ready holds_some [] trial_class lone_trial).
  { eapply Ready; [vm_compute; reflexivity| |names|names|].
    { constructor; [names|]. constructor; [intros []|constructor]. }
    intros m [<-|[<-|[]]].
    - eapply ReadyStruct; [vm_compute; reflexivity|vm_compute; reflexivity|now left|names| |intros H; vm_compute in H; discriminate].
      intros x [<-|[<-|[]]]; [now left|]. right. right. right. discriminate.
    - eapply ReadyStruct; [vm_compute; reflexivity|vm_compute; reflexivity|now left|names| |intros H; vm_compute in H; discriminate].
      intros x [<-|[<-|[]]]; [now left|]. right. now left. }
  destruct (enter_ok holds_some trial_class lone_trial (lit "/data") HR eq_refl) as (b & B1 & B2 & _ & B4 & _). rewrite B1. cbn [fst].
  split; [exact B2|]. split; [|split; [exact B4|]].
  - assert (Eb : b = fst (enter_exp holds_some trial_class lone_trial)) by now rewrite B1.
    assert (PT : forall s, s = "tree"%string \/ s = "depth-48"%string \/ s = "env"%string \/ s = "agent"%string -> plain (lit s)).
    { intros s [->|[->|[->| ->]]]; (apply plain_dec; [discriminate|reflexivity..]). }
    intros m [<-|[<-|[]]]; (split; [reflexivity|]; split; [apply PT; tauto|]).
    + exists leaf_class, base_seed. eexists. exists [lit "tree"]. split; [reflexivity|]. rewrite Eb.
      split; [vm_compute; reflexivity|]. split; [vm_compute; reflexivity|]. split; [discriminate|]. constructor; [apply PT; tauto|constructor].
    + exists agent_class, [lit "base_dir"; lit "input_dim"]. eexists. exists [lit "depth-48"]. split; [reflexivity|]. rewrite Eb.
      split; [vm_compute; reflexivity|]. split; [vm_compute; reflexivity|]. split; [discriminate|]. constructor; [apply PT; tauto|constructor].
  - exists true, [lit "data"]. split; [reflexivity|]. constructor; [apply plain_dec; [discriminate|reflexivity..]|constructor].
Qed.

(** ** Positional fields are not in the directories of the parts *)
Definition named_class := [just (text_field "exp"); declared "trial" true trial_class base_seed].
Definition named_exp (n m : string) := [value "exp" (VStr (lit n)); holds "trial" (trial ++ [value "_model" (VStr (lit m))]);
  value "seed" (VInt 5); value "base_dir" (VStr (lit "/data"))].
Definition text_dump (v : pval) : pystr := match v with VStr s => s | _ => [] end.
Definition text_undump (t : pystr) : result pval := Ok (VStr t).
Definition trial_logs (ms : list member) : bool := match ms with MStruct _ _ _ _ _ _ :: _ => true | _ => false end.
Definition pickle_file (_ : list member) : option pystr := Some (lit "model.pickle").
Lemma ready_named n m : nested_string named_class (named_exp n m) = Ok (lit n ++ lit "/trial/tree/agent/depth-48") -> ready holds_some [] named_class (named_exp n m).
Proof.
  intros H. eapply Ready; [exact H| |names|names|].
  { constructor; [names|]. constructor; [intros []|constructor]. }
  intros x [<-|[<-|[]]]; [constructor|].
  eapply ReadyStruct; [vm_compute; reflexivity|vm_compute; reflexivity|now left|names| |].
  - intros x [<-|[<-|[]]]; [now left|]. right. right. right. discriminate.
  - intros _. eapply Ready; [vm_compute; reflexivity| |names|names|].
    { constructor; [names|]. constructor; [intros []|constructor]. }
    intros x [<-|[<-|[]]].
    + eapply ReadyStruct; [vm_compute; reflexivity|vm_compute; reflexivity|now left|names| |intros H'; vm_compute in H'; discriminate].
      intros x [<-|[<-|[]]]; [now left|]. right. right. left. right. now left.
    + eapply ReadyStruct; [vm_compute; reflexivity|vm_compute; reflexivity|now left|names| |intros H'; vm_compute in H'; discriminate].
      intros x [<-|[<-|[]]]; [now left|]. right. now left.
Qed.
Lemma shared_dirs : exists members a b p1 p2 q, ready holds_some [] members a /\ ready holds_some [] members b /\
  let a2 := fst (enter_exp holds_some members a) in let b2 := fst (enter_exp holds_some members b) in
  log_path members a2 = Ok p1 /\ log_path members b2 = Ok p2 /\ p1 <> p2 /\
  dir_of trial_class (at_path ["trial"]%string a2) = Some q /\ dir_of trial_class (at_path ["trial"]%string b2) = Some q /\
  let exit := exit_exp holds_some trial_logs pickle_file text_dump in
  let fs := fst (exit members (fst (exit members [] a2)) b2) in
  snd (exit members [] a2) = Ok tt /\ snd (exit members (fst (exit members [] a2)) b2) = Ok tt /\
  match at_path ["trial"]%string b2 with Some x => get_value x (lit "_model") | None => None end = Some (VStr (lit "second")) /\
  match at_path ["trial"]%string b2 with
  | Some x => snd (load_model holds_some trial_logs pickle_file text_dump text_undump (fun fs a => (fs, a, Ok VNone)) trial_class fs
                     (filter (fun y => negb (streq (fst y) (lit "_model"))) x))
  | None => Err ValueError
  end = Ok (VStr (lit "first")).
Proof.
  exists named_class, (named_exp "one" "first"), (named_exp "two" "second"), (lit "/data/one/trial/tree/agent/depth-48"), (lit "/data/two/trial/tree/agent/depth-48"),
    (lit "/data/trial/tree/agent/depth-48").
  split; [apply ready_named; vm_compute; reflexivity|]. split; [apply ready_named; vm_compute; reflexivity|].
  repeat apply conj; try (vm_compute; reflexivity). discriminate.
Qed.

(** ** Failures inside are not noticed *)
Definition blind_class := [just (named "seed" CInt); declared "trial" true trial_class [lit "base_dir"]].
Lemma silent_failure : exists b, enter_exp holds_some blind_class study = (b, Ok tt) /\
  snd (enter_exp holds_some trial_class (match at_path ["trial"]%string b with Some x => x | None => [] end)) = Err AttributeError /\
  match at_path ["trial"; "agent"]%string b with Some x => log_path agent_class x | None => Err ValueError end = Err AttributeError.
Proof. eexists. split; [vm_compute; reflexivity|]. split; vm_compute; reflexivity. Qed.

(** ** Models *)
Definition model_trial := lone_trial ++ [value "_model" (VStr (lit "weights"))].
Definition trial_dir := lit "/data/tree/agent/depth-48".
Lemma model_ex : model_at pickle_file trial_class model_trial trial_dir (lit "model.pickle") (trial_dir ++ lit "/model.pickle") /\
  get_value model_trial (lit "_model") = Some (VStr (lit "weights")) /\
  model_at pickle_file trial_class lone_trial trial_dir (lit "model.pickle") (trial_dir ++ lit "/model.pickle") /\ no_model lone_trial /\
  trial_logs trial_class = true /\ text_undump (text_dump (VStr (lit "weights"))) = Ok (VStr (lit "weights")).
Proof.
  assert (HM : forall a, get_value a (lit "base_dir") = Some (VStr (lit "/data")) -> nested_string trial_class a = Ok (lit "tree/agent/depth-48") ->
    model_at pickle_file trial_class a trial_dir (lit "model.pickle") (trial_dir ++ lit "/model.pickle")).
  { intros a H1 H2. repeat (split; [first [reflexivity|discriminate|(intros H; vm_compute in H; intuition discriminate)]|]).
    exists (lit "/data"), (lit "tree/agent/depth-48"). split; [exact H1|]. split; [exact H2|]. repeat apply conj; try (vm_compute; reflexivity). discriminate. }
  split; [apply HM; vm_compute; reflexivity|]. split; [vm_compute; reflexivity|]. split; [apply HM; vm_compute; reflexivity|].
  repeat apply conj; vm_compute; reflexivity.
Qed.
Lemma exit_ex : exists fs, exit_exp holds_some trial_logs pickle_file text_dump named_class [] (fst (enter_exp holds_some named_class (named_exp "one" "first"))) = (fs, Ok tt) /\
  gd_get streq fs (lit "/data/trial/tree/agent/depth-48/model.pickle") = Some (lit "first").
Proof. eexists. split; vm_compute; reflexivity. Qed.
