(** Making directories. *)
From Verif Require Import Proofs.DictFacts Proofs.StrFacts Proofs.PathFacts Proofs.StructuresRead Spec.FoldersSpec.
Open Scope Z_scope.

Lemma place_eq_spec a b : place_eq a b = true <-> a = b.
Proof.
  revert b. induction a as [|x a IH]; intros [|y b]; cbn [place_eq]; try (split; (reflexivity || discriminate)).
  rewrite andb_true_iff, IH, streq_spec. split; [intros [-> ->]; reflexivity|intros [= -> ->]; now split].
Qed.
Lemma place_refl a : place_eq a a = true.
Proof. now apply place_eq_spec. Qed.

Section folders.
  Variable cwd : place.
  Variable writable : place -> bool.
  Notation make_dirs := (make_dirs cwd writable).
  Notation mkdir := (mkdir cwd writable).
  Notation there := (there cwd).
  Notation place_of := (place_of cwd).
  Notation get := (gd_get place_eq).
  Notation mem := (gd_mem place_eq).

  Lemma place_abs cs : Forall plain cs -> place_of (path_text true cs) = Some cs.
  Proof.
    intros HF. unfold Folders.place_of, path_text. cbn [app]. rewrite Z.eqb_refl. f_equal.
    destruct cs as [|c cs]; [reflexivity|].
    assert (E : split slash (slash :: join [slash] (c :: cs)) = [] :: c :: cs).
    { change (slash :: join [slash] (c :: cs)) with (join [slash] ([] :: c :: cs)). apply split_join; [discriminate|].
      constructor; [intros []|]. now apply plain_noslash. }
    rewrite E. change (norm_comps true [] ([] :: c :: cs)) with (norm_comps true [] (c :: cs)). now rewrite norm_plain.
  Qed.
  Lemma place_rel cs : Forall plain cwd -> Forall plain cs -> cs <> [] -> place_of (path_text false cs) = Some (cwd ++ cs).
  Proof.
    intros HW HF Hne. unfold path_text. cbn [app]. destruct (join_first cs HF Hne) as (a & s & E & Na). unfold Folders.place_of. rewrite E.
    destruct (Z.eqb_spec a slash); [contradiction|]. rewrite <- E. rewrite split_join; [|exact Hne|now apply plain_noslash].
    rewrite norm_plain; [reflexivity|]. apply Forall_app. now split.
  Qed.
  Lemma slash_in cs : Forall plain cs -> contains [slash] (path_text true cs) = true.
  Proof. intros _. unfold path_text. cbn [app contains is_prefix]. now rewrite Z.eqb_refl. Qed.
  Lemma not_slash s : ~ In slash s -> contains [slash] s = false.
  Proof.
    induction s as [|a s IH]; intros N; [reflexivity|]. cbn [contains is_prefix]. rewrite andb_true_r.
    destruct (Z.eqb_spec slash a) as [E|_]; [exfalso; apply N; left; now symmetry|]. apply IH. intros H. apply N. now right.
  Qed.

  (** ** Nothing is removed or changed *)
  Lemma mkdir_adds fs p fs1 : mkdir fs p = Ok fs1 -> exists c, place_of p = Some c /\ mem fs c = false /\ fs1 = gd_set place_eq fs c true.
  Proof.
    unfold Folders.mkdir. destruct (place_of p) as [c|]; [|discriminate]. destruct (mem fs c) eqn:M; [discriminate|].
    destruct (get fs (removelast c)) as [[]|]; try discriminate. destruct (writable (removelast c)); [|discriminate].
    intros [= <-]. now exists c.
  Qed.
  Theorem keeps : forall fuel fs p c b, get fs c = Some b -> get (fst (make_dirs fuel fs p)) c = Some b.
  Proof.
    induction fuel as [|n IH]; intros fs p c b E; cbn [Folders.make_dirs]; [exact E|]. destruct (there fs p); [exact E|].
    destruct (mkdir fs p) as [fs1|e] eqn:K.
    - cbn [fst]. apply mkdir_adds in K as (c' & _ & M & ->). rewrite (get_set place_eq place_eq_spec). destruct (place_eq c' c) eqn:Ec; [|exact E].
      apply place_eq_spec in Ec. subst c'. unfold gd_mem in M. now rewrite E in M.
    - destruct (negb (contains [slash] (fst (path_split p))) || there fs (fst (path_split p))); [exact E|].
      pose proof (IH fs (fst (path_split p)) c b E) as H. destruct (make_dirs n fs (fst (path_split p))) as [fs1 [[x|]|e1]]; cbn [fst] in *; [now apply IH|exact H|exact H].
  Qed.
  Theorem already fuel fs p : (0 < fuel)%nat -> there fs p = true -> make_dirs fuel fs p = (fs, Ok (Some p)).
  Proof. destruct fuel as [|n]; [lia|]. intros _ H. cbn [Folders.make_dirs]. now rewrite H. Qed.

  (** ** Making all of them *)
  Lemma there_abs fs cs : Forall plain cs -> there fs (path_text true cs) = mem fs cs.
  Proof. intros HF. unfold Folders.there. now rewrite place_abs. Qed.
  Lemma on_way_snoc cs x d : on_way (cs ++ [x]) d <-> on_way cs d \/ d = cs ++ [x].
  Proof.
    unfold on_way. split.
    - intros [rest E]. induction rest as [|y rest _] using rev_ind; [right; now rewrite app_nil_r in E|].
      rewrite app_assoc in E. apply app_inj_tail in E as [E _]. left. now exists rest.
    - intros [[rest ->]| ->]; [exists (rest ++ [x]); now rewrite app_assoc|exists []; now rewrite app_nil_r].
  Qed.
  Lemma mem_get (fs : folders) c : mem fs c = true <-> exists b, get fs c = Some b.
  Proof. unfold gd_mem. destruct (get fs c); split; eauto; try discriminate. intros [b H]. discriminate H. Qed.
  Lemma mkdir_abs fs cs x : Forall plain (cs ++ [x]) -> mem fs (cs ++ [x]) = false ->
    mkdir fs (path_text true (cs ++ [x])) =
      match get fs cs with Some true => if writable cs then Ok (gd_set place_eq fs (cs ++ [x]) true) else Err OSError | _ => Err OSError end.
  Proof. intros HF HM. unfold Folders.mkdir. rewrite place_abs by exact HF. rewrite HM. rewrite removelast_last. reflexivity. Qed.

  Theorem creates : forall cs fs fuel, tree fs -> Forall plain cs -> (forall d, on_way cs d -> writable d = true) ->
    (forall d b, on_way cs d -> get fs d = Some b -> b = true) -> (length cs < fuel)%nat ->
    exists fs2, make_dirs fuel fs (path_text true cs) = (fs2, Ok (Some (path_text true cs))) /\ tree fs2 /\
      (forall d, on_way cs d -> get fs2 d = Some true) /\ (forall d, ~ on_way cs d -> get fs2 d = get fs d).
  Proof.
    induction cs as [|x cs IH] using rev_ind; intros fs fuel HT HF HW HD Hfuel.
    - exists fs. split; [|split; [exact HT|split]].
      + apply already; [lia|]. rewrite there_abs by constructor. unfold gd_mem. now rewrite (proj1 HT).
      + intros d [rest E]. symmetry in E. apply app_eq_nil in E as [-> _]. apply HT.
      + reflexivity.
    - rewrite app_length in Hfuel. cbn [length] in Hfuel. destruct fuel as [|n]; [lia|].
      assert (HF' : Forall plain cs) by now apply Forall_app in HF.
      assert (HX : plain x) by (apply Forall_app in HF as [_ HF]; now inversion HF).
      assert (Hway : forall d, on_way cs d -> on_way (cs ++ [x]) d) by (intros d H; apply on_way_snoc; now left).
      assert (Habove : forall c, tree fs -> mem fs c = true -> forall d, on_way c d -> d <> c -> get fs d = Some true).
      { clear. intros c. induction c as [|y c IHc] using rev_ind; intros HT HM d Hd Hne.
        - destruct Hd as [rest E]. symmetry in E. apply app_eq_nil in E as [-> _]. congruence.
        - apply on_way_snoc in Hd as [Hd| ->]; [|congruence]. pose proof (proj2 HT _ _ HM) as Hc.
          destruct (place_eq d c) eqn:Edc; [apply place_eq_spec in Edc; now subst d|]. apply IHc; [exact HT|now unfold gd_mem; rewrite Hc|exact Hd|].
          intros ->. now rewrite place_refl in Edc. }
      destruct (mem fs (cs ++ [x])) eqn:M.
      + exists fs. split; [apply already; [lia|]; now rewrite there_abs|]. split; [exact HT|]. split; [|reflexivity].
        intros d Hd. destruct (place_eq d (cs ++ [x])) eqn:Ed.
        * apply place_eq_spec in Ed. subst d. apply mem_get in M as [b Hb]. now rewrite (HD _ _ Hd Hb) in Hb.
        * apply (Habove (cs ++ [x])); [exact HT|exact M|exact Hd|]. intros ->. now rewrite place_refl in Ed.
      + cbn [Folders.make_dirs]. rewrite there_abs, M by exact HF. rewrite mkdir_abs by assumption.
        assert (HFin : forall fs1, tree fs1 -> get fs1 cs = Some true -> get fs1 (cs ++ [x]) = None ->
                  tree (gd_set place_eq fs1 (cs ++ [x]) true)).
        { intros fs1 [T1 T2] Hc Hn. split.
          - rewrite (get_set place_eq place_eq_spec). destruct (place_eq (cs ++ [x]) []) eqn:E0; [reflexivity|exact T1].
          - intros c y Hm. rewrite (get_set place_eq place_eq_spec). destruct (place_eq (cs ++ [x]) c) eqn:E1; [reflexivity|].
            apply mem_get in Hm as [b Hb]. rewrite (get_set place_eq place_eq_spec) in Hb. destruct (place_eq (cs ++ [x]) (c ++ [y])) eqn:E2.
            + apply place_eq_spec in E2. apply app_inj_tail in E2 as [<- _]. exact Hc.
            + apply (T2 c y). apply mem_get. eauto. }
        assert (Hfree : forall fs1, (forall d, ~ on_way cs d -> get fs1 d = get fs d) -> get fs1 (cs ++ [x]) = None).
        { intros fs1 H. rewrite H; [unfold gd_mem in M; now destruct (get fs (cs ++ [x]))|].
          intros [rest E]. apply (f_equal (@length _)) in E. rewrite !app_length in E. cbn [length] in E. lia. }
        destruct (get fs cs) as [b|] eqn:Ec.
        * rewrite (HD cs b) in * by (try exact Ec; apply Hway; exists []; now rewrite app_nil_r).
          rewrite HW by (apply Hway; exists []; now rewrite app_nil_r). eexists. split; [reflexivity|]. split; [|split].
          -- apply HFin; [exact HT|exact Ec|now apply (Hfree fs)].
          -- intros d Hd. rewrite (get_set place_eq place_eq_spec). destruct (place_eq (cs ++ [x]) d) eqn:Ed; [reflexivity|].
             apply on_way_snoc in Hd as [Hd| ->]; [|now rewrite place_refl in Ed].
             destruct (place_eq d cs) eqn:Edc; [apply place_eq_spec in Edc; now subst d|].
             apply (Habove cs); [exact HT|unfold gd_mem; now rewrite Ec|exact Hd|]. intros ->. now rewrite place_refl in Edc.
          -- intros d Hd. rewrite (get_set place_eq place_eq_spec). destruct (place_eq (cs ++ [x]) d) eqn:Ed; [|reflexivity].
             apply place_eq_spec in Ed. subst d. exfalso. apply Hd. apply on_way_snoc. now right.
        * rewrite split_path by assumption. cbn [fst]. rewrite slash_in by exact HF'. rewrite there_abs by exact HF'.
          unfold gd_mem at 1. rewrite Ec. cbn [negb orb].
          destruct (IH fs n HT HF' (fun d H => HW d (Hway d H)) (fun d b H => HD d b (Hway d H)) ltac:(lia)) as (fs1 & E1 & T1 & I1 & I2).
          rewrite E1. destruct n as [|n]; [lia|]. cbn [Folders.make_dirs]. rewrite there_abs by exact HF.
          pose proof (Hfree fs1 I2) as Hn. unfold gd_mem at 1. rewrite Hn.
          assert (M1 : mem fs1 (cs ++ [x]) = false) by (unfold gd_mem; now rewrite Hn).
          assert (Hc1 : get fs1 cs = Some true) by (apply I1; exists []; now rewrite app_nil_r).
          rewrite mkdir_abs by assumption. rewrite Hc1.
          rewrite HW by (apply Hway; exists []; now rewrite app_nil_r). eexists. split; [reflexivity|]. split; [|split].
          -- now apply HFin.
          -- intros d Hd. rewrite (get_set place_eq place_eq_spec). destruct (place_eq (cs ++ [x]) d) eqn:Ed; [reflexivity|].
             apply on_way_snoc in Hd as [Hd| ->]; [now apply I1|now rewrite place_refl in Ed].
          -- intros d Hd. rewrite (get_set place_eq place_eq_spec). destruct (place_eq (cs ++ [x]) d) eqn:Ed.
             ++ apply place_eq_spec in Ed. subst d. exfalso. apply Hd. apply on_way_snoc. now right.
             ++ apply I2. intros H. apply Hd. now apply Hway.
  Qed.

  (** ** Where nothing may be made *)
  Lemma absent fs c cs : tree fs -> mem fs [c] = false -> mem fs (c :: cs) = false.
  Proof.
    intros HT H0. induction cs as [|x cs IH] using rev_ind; [exact H0|]. destruct (mem fs (c :: cs ++ [x])) eqn:M; [|reflexivity].
    apply (proj2 HT (c :: cs) x) in M. unfold gd_mem in IH. rewrite M in IH. discriminate.
  Qed.
  Lemma absent_dir fs c cs x : tree fs -> mem fs [c] = false -> Forall plain (c :: cs ++ [x]) ->
    mkdir fs (path_text true (c :: cs ++ [x])) = Err OSError.
  Proof.
    intros HT H0 HF. pose proof (absent fs c cs HT H0) as H1. pose proof (absent fs c (cs ++ [x]) HT H0) as H2.
    change (c :: cs ++ [x]) with ((c :: cs) ++ [x]) in *. rewrite mkdir_abs by assumption.
    unfold gd_mem in H1. destruct (get fs (c :: cs)); [discriminate|reflexivity].
  Qed.
  Lemma first_fails fuel fs c : tree fs -> writable [] = false -> mem fs [c] = false -> plain c -> (0 < fuel)%nat ->
    make_dirs fuel fs (path_text true [c]) = (fs, Ok None).
  Proof.
    intros HT HW H0 HP Hf. destruct fuel as [|n]; [lia|]. cbn [Folders.make_dirs]. rewrite there_abs, H0 by (constructor; [exact HP|constructor]).
    assert (HF : Forall plain ([] ++ [c])) by (constructor; [exact HP|constructor]).
    change [c] with ([] ++ [c]). rewrite mkdir_abs by assumption. rewrite (proj1 HT), HW.
    rewrite split_path by (exact HP || constructor). cbn [fst]. rewrite slash_in, there_abs by constructor. unfold gd_mem. rewrite (proj1 HT). reflexivity.
  Qed.
  (** Two levels below a directory that cannot be written: the path is given back. *)
  Theorem not_made fuel fs c d : tree fs -> writable [] = false -> mem fs [c] = false -> plain c -> plain d -> (1 < fuel)%nat ->
    make_dirs fuel fs (path_text true [c; d]) = (fs, Ok (Some (path_text true [c; d]))) /\ there fs (path_text true [c; d]) = false.
  Proof.
    intros HT HW H0 HP HQ Hf. assert (HF : Forall plain [c; d]) by (constructor; [exact HP|constructor; [exact HQ|constructor]]).
    pose proof (absent fs c [d] HT H0) as H1. split; [|now rewrite there_abs].
    destruct fuel as [|n]; [lia|]. cbn [Folders.make_dirs]. rewrite there_abs, H1 by exact HF. rewrite (absent_dir fs c [] d : _ -> _ -> _ -> mkdir fs (path_text true [c; d]) = _) by assumption.
    change [c; d] with ([c] ++ [d]). rewrite split_path by (exact HQ || (constructor; [exact HP|constructor])). cbn [fst].
    rewrite slash_in, there_abs, H0 by (constructor; [exact HP|constructor]). cbn [negb orb].
    now rewrite first_fails by (assumption || lia).
  Qed.
  (** Three levels or more: it calls itself without end. *)
  Theorem endless : forall fuel fs c d e cs, tree fs -> writable [] = false -> mem fs [c] = false -> Forall plain (c :: d :: e :: cs) ->
    make_dirs fuel fs (path_text true (c :: d :: e :: cs)) = (fs, Err OutOfFuel).
  Proof.
    intros fuel fs c d e cs HT HW H0 HF.
    assert (H3 : forall n, make_dirs n fs (path_text true [c; d; e]) = (fs, Err OutOfFuel)).
    { assert (HF3 : Forall plain [c; d; e]) by (change (c :: d :: e :: cs) with ([c; d; e] ++ cs) in HF; apply Forall_app in HF as [HF _]; exact HF).
      inversion HF3 as [|? ? A HF1]; inversion HF1 as [|? ? B HF2]; inversion HF2 as [|? ? C _]; subst.
      assert (HFcd : Forall plain [c; d]) by (constructor; [exact A|constructor; [exact B|constructor]]).
      induction n as [|n IHn]; [reflexivity|]. cbn [Folders.make_dirs]. rewrite there_abs by exact HF3. rewrite (absent fs c [d; e] HT H0).
      rewrite (absent_dir fs c [d] e : _ -> _ -> _ -> mkdir fs (path_text true [c; d; e]) = _) by assumption. change [c; d; e] with ([c; d] ++ [e]). rewrite split_path by assumption. cbn [fst].
      rewrite slash_in, there_abs by exact HFcd. rewrite (absent fs c [d] HT H0). cbn [negb orb].
      destruct n as [|[|n]].
      - reflexivity.
      - cbn [Folders.make_dirs]. rewrite there_abs by exact HFcd. rewrite (absent fs c [d] HT H0). rewrite (absent_dir fs c [] d : _ -> _ -> _ -> mkdir fs (path_text true [c; d]) = _) by assumption.
        change [c; d] with ([c] ++ [d]). rewrite split_path by (exact B || (constructor; [exact A|constructor])). cbn [fst].
        rewrite slash_in, there_abs, H0 by (constructor; [exact A|constructor]). reflexivity.
      - destruct (not_made (S (S n)) fs c d) as [E _]; try assumption; [lia|]. rewrite E. exact IHn. }
    revert fuel. induction cs as [|x cs IH] using rev_ind; intros fuel; [apply H3|]. destruct fuel as [|n]; [reflexivity|].
    assert (HF' : Forall plain (c :: d :: e :: cs)).
    { change (c :: d :: e :: cs ++ [x]) with ((c :: d :: e :: cs) ++ [x]) in HF. now apply Forall_app in HF as [HF _]. }
    assert (HX : plain x).
    { change (c :: d :: e :: cs ++ [x]) with ((c :: d :: e :: cs) ++ [x]) in HF. apply Forall_app in HF as [_ HF]. now inversion HF. }
    cbn [Folders.make_dirs]. rewrite there_abs by exact HF. rewrite (absent fs c (d :: e :: cs ++ [x]) HT H0).
    pose proof (absent_dir fs c (d :: e :: cs) x HT H0 HF) as HK. cbn [app] in HK. rewrite HK.
    change (c :: d :: e :: cs ++ [x]) with ((c :: d :: e :: cs) ++ [x]). rewrite split_path by assumption. cbn [fst].
    rewrite slash_in, there_abs by exact HF'. rewrite (absent fs c (d :: e :: cs) HT H0). cbn [negb orb].
    now rewrite (IH HF').
  Qed.

  (** ** Relative paths *)
  Lemma there_rel fs cs : Forall plain cwd -> Forall plain cs -> cs <> [] -> there fs (path_text false cs) = mem fs (cwd ++ cs).
  Proof. intros HW HF Hne. unfold Folders.there. now rewrite place_rel. Qed.
  Lemma absent_rel fs cs x : tree fs -> mem fs cs = false -> mem fs (cs ++ [x]) = false.
  Proof. intros HT H0. destruct (mem fs (cs ++ [x])) eqn:M; [|reflexivity]. apply (proj2 HT) in M. unfold gd_mem in H0. now rewrite M in H0. Qed.
  Lemma mkdir_rel fs cs x : tree fs -> Forall plain cwd -> Forall plain (cs ++ [x]) -> cs <> [] -> mem fs (cwd ++ cs) = false ->
    mkdir fs (path_text false (cs ++ [x])) = Err OSError.
  Proof.
    intros HT HW HF Hne H0. unfold Folders.mkdir. rewrite place_rel by (try assumption; destruct cs; discriminate).
    rewrite app_assoc. rewrite (absent_rel fs _ x HT H0). rewrite removelast_last. unfold gd_mem in H0. now destruct (get fs (cwd ++ cs)).
  Qed.
  (** Of a relative path with two new levels nothing is made, although it might be; *)
  Theorem relative_two fuel fs c d : tree fs -> Forall plain cwd -> plain c -> plain d -> mem fs (cwd ++ [c]) = false -> (0 < fuel)%nat ->
    make_dirs fuel fs (path_text false [c; d]) = (fs, Ok None).
  Proof.
    intros HT HW HP HQ H0 Hf. destruct fuel as [|n]; [lia|]. assert (HF : Forall plain [c; d]) by (constructor; [exact HP|constructor; [exact HQ|constructor]]).
    cbn [Folders.make_dirs]. rewrite there_rel by (assumption || discriminate).
    change (cwd ++ [c; d]) with (cwd ++ [c] ++ [d]). rewrite app_assoc. rewrite (absent_rel _ _ _ HT H0).
    change [c; d] with ([c] ++ [d]) at 1. rewrite mkdir_rel by (assumption || discriminate).
    change [c; d] with ([c] ++ [d]). rewrite split_path by (exact HQ || (constructor; [exact HP|constructor])). cbn [fst].
    unfold path_text. cbn [app join]. rewrite not_slash by apply HP. reflexivity.
  Qed.
  (** with three it is given back all the same. *)
  Theorem relative_three fuel fs c d e : tree fs -> Forall plain cwd -> plain c -> plain d -> plain e -> mem fs (cwd ++ [c]) = false -> (1 < fuel)%nat ->
    make_dirs fuel fs (path_text false [c; d; e]) = (fs, Ok (Some (path_text false [c; d; e]))) /\ there fs (path_text false [c; d; e]) = false.
  Proof.
    intros HT HW HP HQ HR H0 Hf. assert (HF2 : Forall plain [c; d]) by (constructor; [exact HP|constructor; [exact HQ|constructor]]).
    assert (HF : Forall plain ([c; d] ++ [e])) by (apply Forall_app; split; [exact HF2|constructor; [exact HR|constructor]]).
    assert (H1 : mem fs (cwd ++ [c; d]) = false) by (change [c; d] with ([c] ++ [d]); rewrite app_assoc; now apply absent_rel).
    assert (H2 : mem fs (cwd ++ [c; d] ++ [e]) = false) by (rewrite app_assoc; now apply absent_rel).
    change [c; d; e] with ([c; d] ++ [e]). split; [|rewrite there_rel by (assumption || discriminate); exact H2].
    destruct fuel as [|n]; [lia|]. cbn [Folders.make_dirs]. rewrite there_rel by (assumption || discriminate). rewrite H2.
    rewrite mkdir_rel by (assumption || discriminate). rewrite split_path by assumption. cbn [fst].
    rewrite there_rel by (assumption || discriminate). rewrite H1.
    assert (HS : contains [slash] (path_text false [c; d]) = true).
    { unfold path_text. cbn [app join]. clear. induction c as [|a c IH]; [cbn [app contains is_prefix]; now rewrite Z.eqb_refl|].
      cbn [app contains]. cbn [app] in IH. rewrite IH. now rewrite orb_true_r. }
    rewrite HS. cbn [negb orb]. now rewrite relative_two by (assumption || lia).
  Qed.
End folders.
