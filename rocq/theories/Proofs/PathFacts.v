(** Facts about paths. *)
From Verif Require Import Proofs.StrFacts Spec.Structures.
Open Scope Z_scope.

Lemma cut_last_none c s : ~ In c s -> cut_last c s = ([], s).
Proof.
  induction s as [|a s IH]; intros N; [reflexivity|]. cbn [cut_last]. rewrite IH by (intros H; apply N; now right).
  destruct (Z.eqb_spec a c); [exfalso; apply N; now left|reflexivity].
Qed.
Lemma cut_last_app c h t : ~ In c t -> cut_last c (h ++ c :: t) = (h ++ [c], t).
Proof.
  intros N. induction h as [|a h IH].
  - cbn [app cut_last]. rewrite cut_last_none by exact N. now rewrite Z.eqb_refl.
  - cbn [app cut_last]. rewrite IH. destruct (h ++ [c]) eqn:E; [now destruct h|]. reflexivity.
Qed.

Lemma path_snoc r cs c : cs <> [] -> path_text r (cs ++ [c]) = path_text r cs ++ slash :: c.
Proof.
  intros H. unfold path_text. rewrite join_app by (assumption || discriminate). cbn [join].
  now rewrite <- app_assoc.
Qed.

Lemma plain_last cs : Forall plain cs -> cs <> [] -> exists s a, join [slash] cs = s ++ [a] /\ a <> slash.
Proof.
  intros HF Hne. destruct (exists_last Hne) as (l & c & ->). apply Forall_app in HF as [_ HF].
  inversion HF as [|? ? (P1 & P2 & _) _]; subst. destruct (exists_last P1) as (s & a & ->).
  assert (Na : a <> slash) by (intros ->; apply P2, in_app_iff; right; now left).
  destruct l as [|x l].
  - exists s, a. split; [reflexivity|exact Na].
  - rewrite join_app by discriminate. cbn [join]. exists (join [slash] (x :: l) ++ [slash] ++ s), a.
    split; [now rewrite <- !app_assoc|exact Na].
Qed.

Lemma rstrip_last c s a : a <> c -> rstrip_char c (s ++ [a; c]) = s ++ [a].
Proof.
  intros N. unfold rstrip_char. rewrite rev_app_distr. cbn [rev app lstrip_char]. rewrite Z.eqb_refl.
  destruct (Z.eqb_spec a c); [contradiction|]. cbn [rev]. now rewrite rev_involutive.
Qed.

Lemma split_path r cs c : Forall plain cs -> plain c -> path_split (path_text r (cs ++ [c])) = (path_text r cs, c).
Proof.
  intros HF (P1 & P2 & _). unfold path_split. destruct cs as [|x cs].
  - unfold path_text. cbn [app join]. destruct r; cbn [app].
    + change (slash :: c) with ([] ++ slash :: c). rewrite cut_last_app by exact P2. reflexivity.
    + rewrite cut_last_none by exact P2. reflexivity.
  - rewrite path_snoc by discriminate. rewrite cut_last_app by exact P2.
    destruct (plain_last (x :: cs) HF) as (s & a & E & Na); [discriminate|].
    unfold path_text. rewrite E.
    replace (((if r then [slash] else []) ++ s ++ [a]) ++ [slash]) with (((if r then [slash] else []) ++ s) ++ [a; slash])
      by (rewrite <- !app_assoc; reflexivity).
    rewrite rstrip_last by exact Na.
    assert (F : forallb (Z.eqb slash) (((if r then [slash] else []) ++ s) ++ [a; slash]) = false).
    { apply not_true_is_false. rewrite forallb_forall. intros H. specialize (H a). apply Na.
      symmetry. apply Z.eqb_eq, H. rewrite !in_app_iff. right. now left. }
    rewrite F. now rewrite <- !app_assoc.
Qed.

Lemma norm_plain r : forall cs acc, Forall plain cs -> norm_comps r acc cs = rev acc ++ cs.
Proof.
  induction cs as [|c cs IH]; intros acc HF; cbn [norm_comps]; [now rewrite app_nil_r|].
  inversion HF as [|? ? (P1 & P2 & P3 & P4) HF']; subst.
  assert (E1 : forall t, c <> t -> streq c t = false).
  { intros t N. apply not_true_is_false. now rewrite streq_spec. }
  rewrite !E1 by assumption. cbn [orb negb]. rewrite IH by exact HF'. cbn [rev]. now rewrite <- app_assoc.
Qed.

Lemma plain_noslash cs : Forall plain cs -> Forall (fun w => ~ In slash w) cs.
Proof. apply Forall_impl. now intros c (_ & H & _). Qed.

Lemma join_first cs : Forall plain cs -> cs <> [] -> exists a s, join [slash] cs = a :: s /\ a <> slash.
Proof.
  intros HF Hne. destruct cs as [|c cs]; [contradiction|]. inversion HF as [|? ? (P1 & P2 & _) _]; subst.
  destruct c as [|a c]; [contradiction|]. assert (Na : a <> slash) by (intros ->; apply P2; now left).
  destruct cs as [|c' cs]; [exists a, c; split; [reflexivity|exact Na]|].
  rewrite join_cons by discriminate. cbn [app]. eauto.
Qed.

Lemma norm_path r cs : Forall plain cs -> cs <> [] -> normpath (path_text r cs) = path_text r cs.
Proof.
  intros HF Hne. destruct (join_first cs HF Hne) as (a & s & E & Na).
  assert (Ea : (a =? slash) = false) by now apply Z.eqb_neq.
  assert (Es : split slash (a :: s) = cs) by (rewrite <- E; apply split_join; [exact Hne|now apply plain_noslash]).
  unfold path_text. destruct r; cbn [app]; rewrite E.
  - assert (Ep : split slash (slash :: a :: s) = [] :: cs).
    { cbn [split] in Es |- *. rewrite Z.eqb_refl. now rewrite Es. }
    unfold normpath. rewrite Ep.
    assert (N : norm_comps true [] ([] :: cs) = cs).
    { cbn [norm_comps streq orb]. rewrite norm_plain by exact HF. reflexivity. }
    destruct s as [|b s]; rewrite Z.eqb_refl, Ea; cbn [andb Nat.eqb negb repeat app]; rewrite N, E; reflexivity.
  - unfold normpath. rewrite Es.
    assert (N : norm_comps false [] cs = cs) by (rewrite norm_plain by exact HF; reflexivity).
    destruct s as [|b [|c s]]; rewrite ?Ea; cbn [Nat.eqb negb repeat app]; rewrite N, E; reflexivity.
Qed.

Lemma starts_plain cs : Forall plain cs -> cs <> [] -> starts_with slash (path_text false cs) = false.
Proof.
  intros HF Hne. destruct (join_first cs HF Hne) as (a & s & E & Na). unfold path_text. cbn [app]. rewrite E.
  cbn [starts_with]. now apply Z.eqb_neq.
Qed.

Lemma join_path r cs ds : Forall plain cs -> Forall plain ds -> ds <> [] ->
  path_join2 (path_text r cs) (path_text false ds) = path_text r (cs ++ ds).
Proof.
  intros HC HD Hne. unfold path_join2. rewrite starts_plain by assumption.
  destruct cs as [|c cs].
  - unfold path_text at 1 2 3. cbn [join app]. destruct r; cbn [app]; reflexivity.
  - destruct (plain_last (c :: cs) HC) as (s & a & E & Na); [discriminate|].
    unfold path_text. rewrite (join_app [slash] (c :: cs) ds) by (discriminate || exact Hne). rewrite E.
    assert (Ee : ends_with slash ((if r then [slash] else []) ++ s ++ [a]) = false).
    { unfold ends_with. rewrite app_assoc, rev_app_distr. cbn. now apply Z.eqb_neq. }
    destruct ((if r then [slash] else []) ++ s ++ [a]) as [|x l] eqn:El.
    { destruct r, s; discriminate. }
    rewrite Ee. rewrite <- El. rewrite <- !app_assoc. reflexivity.
Qed.

Lemma join_comps cs c : Forall plain (c :: cs) -> path_join c cs = path_text false (c :: cs).
Proof.
  unfold path_join. revert c.
  assert (HG : forall cs acc, acc <> [] -> Forall plain acc -> Forall plain cs ->
    fold_left path_join2 cs (path_text false acc) = path_text false (acc ++ cs)).
  { clear. induction cs as [|c cs IH]; intros acc Ha HA HC; cbn [fold_left]; [now rewrite app_nil_r|].
    inversion HC as [|? ? H1 H2]; subst.
    replace c with (path_text false [c]) at 1 by reflexivity.
    rewrite join_path by (assumption || discriminate || (constructor; [assumption|constructor])).
    rewrite IH.
    - now rewrite <- app_assoc.
    - now destruct acc.
    - apply Forall_app. split; [exact HA|now constructor].
    - exact H2. }
  intros c HF. inversion HF as [|? ? H1 H2]; subst. apply (HG cs [c]); [discriminate|now constructor|exact H2].
Qed.

Lemma ext_path r cs c : Forall plain cs -> plain c -> path_ext (path_text r (cs ++ [c])) = path_ext c.
Proof.
  intros HF (P1 & P2 & _). unfold path_ext. rewrite (cut_last_none slash c) by exact P2.
  assert (E : snd (cut_last slash (path_text r (cs ++ [c]))) = c).
  { destruct cs as [|x cs].
    - unfold path_text. cbn [app join]. destruct r; cbn [app].
      + change (slash :: c) with ([] ++ slash :: c). now rewrite cut_last_app.
      + now rewrite cut_last_none.
    - rewrite path_snoc by discriminate. now rewrite cut_last_app. }
  now rewrite E.
Qed.

(** the text of a path with plain components determines them *)
Lemma path_text_inj cs ds : Forall plain cs -> Forall plain ds -> cs <> [] -> ds <> [] ->
  path_text false cs = path_text false ds -> cs = ds.
Proof.
  intros HC HD Hc Hd E. unfold path_text in E. cbn [app] in E.
  rewrite <- (split_join slash cs Hc (plain_noslash _ HC)), <- (split_join slash ds Hd (plain_noslash _ HD)).
  now rewrite E.
Qed.
