(** Different Structures have different logs; examples and failures. *)
From Verif Require Import Proofs.DictFacts Proofs.PyFacts Proofs.ParamsFacts Proofs.StrFacts Proofs.PathFacts Proofs.StructuresFacts Proofs.StructuresRead
  Proofs.StructuresTop Proofs.StructuresNeg Proofs.NestedFacts Proofs.NestedRead Proofs.NestedTop Proofs.NestedNeg Proofs.RecordsFacts Proofs.StructLogsFacts Proofs.StructLogsExt Spec.StructLogsSpec.
Open Scope Z_scope.

Section same.
  Variable literal_eval : pystr -> option pval.
  Variable uninumeric : pystr -> bool.
  Variable is_float : pystr -> bool.
  Hypothesis HE : evaluates literal_eval.
  Notation nested_ok := (nested_ok literal_eval uninumeric is_float).

  Lemma restored_alike base members a : nested_ok members a -> forall inh b c,
    restored base members inh a c -> restored base members inh b c -> alike members a b.
  Proof.
    intros H. revert members a H.
    apply (nested_mut literal_eval uninumeric is_float
      (fun members a => forall inh b c, restored base members inh a c -> restored base members inh b c -> alike members a b)
      (fun a m => forall b c, restored_member base m a c -> restored_member base m b c -> alike_member m a b)).
    - intros members a _ _ _ _ _ _ _ HM inh b c HA HB. inversion HA as [? ? ? ? A1 _ A3]; subst. inversion HB as [? ? ? ? B1 _ B3]; subst.
      constructor; [|intros m Hm; exact (HM m Hm b c (A3 m Hm) (B3 m Hm))].
      intros f Hf Hs. specialize (A1 f Hf Hs). specialize (B1 f Hf Hs).
      destruct (get_value a (f_name f)) as [v|], (get_value b (f_name f)) as [w|], (get_value c (f_name f)) as [u|]; try contradiction; try exact I.
      eapply same_trans; [exact A1|]. now apply same_sym.
    - intros. constructor.
    - intros a n req ms inh x Ex _ HS _ b c HA HB. inversion HA as [|? ? ? ? ? ? ? ? ? xa ya Ea Ec Ra]; subst.
      inversion HB as [|? ? ? ? ? ? ? ? ? xb yb Eb Ec' Rb]; subst. rewrite Ec in Ec'. injection Ec' as <-. rewrite Ex in Ea. injection Ea as <-.
      econstructor; [exact Ex|exact Eb|]. now apply (HS inh xb ya).
  Qed.

  Lemma join_file rooted cs f : Forall plain cs -> cs <> [] -> starts_with slash f = false ->
    path_join2 (path_text rooted cs) f = path_text rooted cs ++ slash :: f.
  Proof.
    intros HC Hne Hf. unfold path_join2. rewrite Hf. destruct (plain_last cs HC Hne) as (s & x & E & Nx).
    unfold path_text. rewrite E.
    assert (Ee : ends_with slash ((if rooted then [slash] else []) ++ s ++ [x]) = false).
    { unfold ends_with. rewrite app_assoc, rev_app_distr. cbn. now apply Z.eqb_neq. }
    destruct ((if rooted then [slash] else []) ++ s ++ [x]) as [|y l] eqn:El.
    { destruct rooted, s; discriminate. }
    now rewrite Ee.
  Qed.

  (** Two instances of a class in one directory that log to the same file have the same fields. *)
  Theorem same_log c base a b p d1 d2 f1 f2 : nested_ok (l_members c) a -> nested_ok (l_members c) b ->
    NoDup (all_names (l_members c)) -> ~ In (lit "base_dir") (all_names (l_members c)) -> normal_dir base ->
    get_value a (lit "base_dir") = Some (VStr base) -> get_value b (lit "base_dir") = Some (VStr base) ->
    logs_to c a d1 f1 p -> logs_to c b d2 f2 p -> alike (l_members c) a b.
  Proof.
    intros Oa Ob HN HB HD Ba Bb (_ & F1 & Z1 & Z2 & b1 & s1 & E1 & S1 & -> & _ & P1) (_ & F2 & _ & _ & b2 & s2 & E2 & S2 & -> & _ & P2).
    assert (f2 = f1) by congruence. subst f2. assert (b1 = base) by congruence. subst b1. assert (b2 = base) by congruence. subst b2.
    destruct (strings_fit literal_eval uninumeric is_float _ _ Oa) as (Ca1 & Ca2 & Ca3).
    destruct (strings_fit literal_eval uninumeric is_float _ _ Ob) as (Cb1 & Cb2 & Cb3).
    assert (s1 = path_text false (ncomps (l_members c) a)) by congruence. subst s1.
    assert (s2 = path_text false (ncomps (l_members c) b)) by congruence. subst s2.
    assert (SF : starts_with slash f1 = false).
    { destruct f1 as [|x f]; [reflexivity|]. cbn. apply Z.eqb_neq. intros ->. apply Z2. now left. }
    pose proof HD as (rooted & Y & EY & HY). rewrite EY in P1, P2. rewrite (join_path rooted Y _ HY Ca1 Ca2) in P1. rewrite (join_path rooted Y _ HY Cb1 Cb2) in P2.
    rewrite join_file in P1; [|now apply Forall_app|intros H; apply app_eq_nil in H; tauto|exact SF].
    rewrite join_file in P2; [|now apply Forall_app|intros H; apply app_eq_nil in H; tauto|exact SF].
    rewrite P1 in P2. apply app_inv_tail in P2.
    destruct (nested_round literal_eval (fun _ => None) uninumeric (fun _ _ => true) (fun _ => None) is_float (fun _ => None) (fun _ => []) (fun _ => false)
      (fun _ => false) HE (l_members c) [] a base Oa HN HB (fun n (H : In n []) => match H with end) HD) as (d & x & N1 & R1 & T1 & _).
    destruct (nested_round literal_eval (fun _ => None) uninumeric (fun _ _ => true) (fun _ => None) is_float (fun _ => None) (fun _ => []) (fun _ => false)
      (fun _ => false) HE (l_members c) [] b base Ob HN HB (fun n (H : In n []) => match H with end) HD) as (e & y & N2 & R2 & T2 & _).
    assert (d = path_text false (ncomps (l_members c) a)) by congruence. subst d.
    assert (e = path_text false (ncomps (l_members c) b)) by congruence. subst e.
    rewrite EY in R1, R2 at 1. rewrite (join_path rooted Y _ HY Ca1 Ca2) in R1. rewrite (join_path rooted Y _ HY Cb1 Cb2) in R2.
    rewrite P2 in R1. assert (x = y) by congruence. subst y. exact (restored_alike base _ a Oa [] b x T1 T2).
  Qed.
End same.

(** ** An example *)
Definition exp_logs := LogClass exp_class true (Some (lit "data.txt")).
Definition log_exp := my_exp ++ [value "base_dir" (VStr (lit "/data")); value "_data" (VOther (lit "a b
1 2
"))].
Definition fresh_exp := my_exp ++ [value "base_dir" (VStr (lit "/data"))].
Definition frame_csv (v : pval) : option pystr := match v with VOther s => Some s | _ => None end.
(** the first row is skipped *)
Definition frame_read (t : pystr) : result pval := match text_lines t with _ :: ls => Ok (VOther (concat ls)) | [] => Err ValueError end.

Definition exp_dir := lit "/data/coin_1/tree/book1/n-3/depth-48/seed--7".
Lemma exp_logs_to a : get_value a (lit "base_dir") = Some (VStr (lit "/data")) ->
  nested_string exp_class a = Ok (lit "coin_1/tree/book1/n-3/depth-48/seed--7") ->
  logs_to exp_logs a exp_dir (lit "data.txt") (exp_dir ++ lit "/data.txt").
Proof.
  intros H1 H2. repeat (split; [first [reflexivity|discriminate|(intros H; vm_compute in H; intuition discriminate)]|]).
  exists (lit "/data"), (lit "coin_1/tree/book1/n-3/depth-48/seed--7"). split; [exact H1|]. split; [exact H2|].
  repeat apply conj; try (vm_compute; reflexivity). discriminate.
Qed.
Lemma saved_ex : logs_to exp_logs log_exp exp_dir (lit "data.txt") (exp_dir ++ lit "/data.txt") /\
  exists v, get_value log_exp (lit "_data") = Some v /\ exists t, frame_csv v = Some t /\
  frame_read (log_text (exp_dir ++ lit "/data.txt") t) = Ok v.
Proof.
  split; [apply exp_logs_to; vm_compute; reflexivity|]. eexists. split; [vm_compute; reflexivity|]. eexists. split; vm_compute; reflexivity.
Qed.
Lemma fresh_ex : logs_to exp_logs fresh_exp exp_dir (lit "data.txt") (exp_dir ++ lit "/data.txt") /\ no_data fresh_exp /\
  gd_get streq (own_attrs fresh_exp) (lit "base_path") = None.
Proof. split; [apply exp_logs_to; vm_compute; reflexivity|]. split; vm_compute; reflexivity. Qed.

(** ** The wrong log *)
Definition seed_logs := LogClass [just (named "seed" CInt)] true (Some (lit "data.txt")).
Lemma wrong_log : exists fs, gd_get streq fs (lit "/data/seed-1/data.txt") = Some (log_text (lit "/data/seed-1/data.txt") (lit "one")) /\
  gd_get streq fs (lit "/data/data.txt") = Some (log_text (lit "/data/data.txt") (lit "other")) /\
  snd (load_data frame_read seed_logs fs [value "seed" (VInt 1)] (Some (lit "/data"))) = Ok (VOther (lit "other")).
Proof.
  exists [(lit "/data/seed-1/data.txt", log_text (lit "/data/seed-1/data.txt") (lit "one")); (lit "/data/data.txt", log_text (lit "/data/data.txt") (lit "other"))].
  repeat apply conj; vm_compute; reflexivity.
Qed.

Lemma exp_ok e : (forall n, In n (map fst e) -> ~ In n (map member_name exp_class)) ->
  nested_ok simple_eval (fun _ => false) (fun _ => false) exp_class (my_exp ++ e).
Proof. intros H. apply (ok_ext _ _ _ exp_class my_exp); [now apply agree_app|apply two_levels]. Qed.
Lemma same_ex : evaluates simple_eval /\ nested_ok simple_eval (fun _ => false) (fun _ => false) (l_members exp_logs) log_exp /\
  NoDup (all_names (l_members exp_logs)) /\ ~ In (lit "base_dir") (all_names (l_members exp_logs)) /\ normal_dir (lit "/data") /\
  get_value log_exp (lit "base_dir") = Some (VStr (lit "/data")) /\
  logs_to exp_logs log_exp exp_dir (lit "data.txt") (exp_dir ++ lit "/data.txt").
Proof.
  split; [apply two_levels|]. split; [apply exp_ok; cbn; intuition (subst; discriminate)|]. split; [apply two_levels|]. split; [apply two_levels|].
  split; [|split; [vm_compute; reflexivity|apply saved_ex]].
  exists true, [lit "data"]. split; [reflexivity|]. constructor; [apply plain_dec; [discriminate|reflexivity..]|constructor].
Qed.
Lemma loaded_ex : let a := fresh_exp ++ [value "base_path" (VStr exp_dir)] in
  logs_to exp_logs a exp_dir (lit "data.txt") (exp_dir ++ lit "/data.txt") /\ no_data a /\ get_value a (lit "base_path") = Some (VStr exp_dir).
Proof. split; [apply exp_logs_to; vm_compute; reflexivity|]. split; vm_compute; reflexivity. Qed.
Lemma given_ex : exists fs2, save_data frame_csv exp_logs [] fresh_exp (Some (VOther (lit "new"))) = (fs2, Err AttributeError) /\
  gd_get streq fs2 (exp_dir ++ lit "/data.txt") = Some (lit "# " ++ exp_dir ++ lit "/data.txt" ++ [nl]) /\
  save_data frame_csv exp_logs fs2 log_exp None = (fs2, Ok None).
Proof. eexists. repeat apply conj; vm_compute; reflexivity. Qed.
Lemma other_ex : save_data frame_csv exp_logs [] log_exp (Some (VOther (lit "new"))) =
  ([(exp_dir ++ lit "/data.txt", log_text (exp_dir ++ lit "/data.txt") (lit "a b
1 2
"))], Ok (Some (exp_dir ++ lit "/data.txt"))).
Proof. vm_compute. reflexivity. Qed.
