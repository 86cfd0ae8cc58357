(** The directory string of a Structure with other Structures in it. *)
From Coq Require Import Permutation.
From Verif Require Import Proofs.DictFacts Proofs.ParamsFacts Proofs.StrFacts Proofs.PyFacts Proofs.FileNamesFacts
  Proofs.PathFacts Proofs.StructuresFacts Proofs.StructuresRead Proofs.StructuresTop Spec.NestedSpec.
Open Scope Z_scope.

Scheme nested_mut := Minimality for nested_ok Sort Prop
  with member_mut := Minimality for member_ok Sort Prop.

Lemma own_in f members : In f (own_fields members) <-> In (MField f) members.
Proof.
  unfold own_fields. rewrite in_flat_map. split.
  - intros ([g|] & H1 & H2); [destruct H2 as [->|[]]; exact H1|destruct H2].
  - intros H. exists (MField f). split; [exact H|now left].
Qed.

(** ** The functions without their inner loops *)
Lemma member_string_struct n req k p t members inh a : member_string (MStruct n req k p t (Some (members, inh))) a =
  if t then Ok None
  else match gd_get streq a n with
       | None | Some (SVal None) => if req then Err TypeError else Ok None
       | Some (SVal (Some (VStr s))) => Ok (Some (if k then path_join2 n s else s))
       | Some (SVal (Some _)) => Err ValueError
       | Some (SInst b) => do s <- nested_string members b; Ok (Some (if k then path_join2 n s else s))
       end.
Proof.
  cbn [member_string]. destruct t; [reflexivity|]. destruct (gd_get streq a n) as [[v|b]|]; [reflexivity| |reflexivity].
  match goal with |- (do parts <- ?g members; _) = _ => assert (E : forall l, g l = member_strings l b) end.
  { induction l as [|x l IH]; [reflexivity|]. cbn [member_strings]. rewrite <- IH. reflexivity. }
  rewrite E. unfold nested_string. destruct (member_strings members b); reflexivity.
Qed.

(** ** Components *)
Definition last_comp (members : list member) (a : sattrs) : list pystr :=
  match get_nonpos_string (own_attrs a) (own_fields members) with Ok (c :: s) => [c :: s] | _ => [] end.
Fixpoint member_comps (m : member) (a : sattrs) : list pystr :=
  match m with
  | MField v => if pos_field v then [comp (own_attrs a) v] else []
  | MStruct n _ _ _ _ (Some (members, _)) =>
      match gd_get streq a n with
      | Some (SInst b) => flat_map (fun x => member_comps x b) members ++ last_comp members b
      | _ => []
      end
  | MStruct _ _ _ _ _ None => []
  end.
Definition ncomps (members : list member) (a : sattrs) : list pystr :=
  flat_map (fun x => member_comps x a) members ++ last_comp members a.

Definition some_comps {A} (l : list A) : bool := match l with [] => false | _ => true end.
Lemma concat_some {A} (l : list (list A)) : concat (filter some_comps l) = concat l.
Proof. induction l as [|x l IH]; [reflexivity|]. cbn. destruct x; cbn; now rewrite IH. Qed.

(** joining the texts of paths *)
Lemma join_paths (css : list (list pystr)) : Forall (fun cs => cs <> [] /\ Forall plain cs) css ->
  (match map (path_text false) css with [] => [] | x :: r => path_join x r end) = path_text false (concat css).
Proof.
  intros HF. destruct css as [|c css]; [reflexivity|]. cbn [map concat]. inversion HF as [|? ? [H1 H2] H3]; subst.
  unfold path_join. clear HF H1. revert c H2. induction css as [|d css IH]; intros c H2; cbn [map fold_left concat].
  - now rewrite app_nil_r.
  - inversion H3 as [|? ? [H4 H5] H6]; subst. rewrite join_path by assumption. rewrite IH.
    + now rewrite app_assoc.
    + exact H6.
    + apply Forall_app. now split.
Qed.

Section strings.
  Variable literal_eval : pystr -> option pval.
  Variable uninumeric : pystr -> bool.
  Variable is_float : pystr -> bool.
  Notation nested_ok := (nested_ok literal_eval uninumeric is_float).
  Notation member_ok := (member_ok literal_eval uninumeric is_float).
  Notation inst_ok := (inst_ok literal_eval uninumeric).

  (** the last component *)
  Lemma last_ok members a : class_fit (own_fields members) -> inst_ok (own_fields members) (own_attrs a) ->
    exists ks, Permutation ks (filter (key_field (own_attrs a)) (own_fields members)) /\
      get_nonpos_string (own_attrs a) (own_fields members) =
        Ok (join [underscore] (map (comp (own_attrs a)) (filter np_field (own_fields members) ++ ks))) /\
      last_comp members a = end_comps (own_attrs a) (filter np_field (own_fields members) ++ ks) /\
      Forall plain (last_comp members a) /\
      (has_end (own_fields members) -> last_comp members a <> []) /\
      get_nonpos_string (own_attrs a) (own_fields members) = Ok (match last_comp members a with c :: _ => c | [] => [] end).
  Proof.
    intros HC HI. destruct (nonpos_string _ _ _ _ HC HI) as (ks & HK & EK). exists ks. split; [exact HK|]. split; [exact EK|].
    set (ends := filter np_field (own_fields members) ++ ks) in *.
    assert (HN : ends <> [] -> has_end (own_fields members)).
    { intros N. destruct ends as [|f l] eqn:E; [contradiction|]. exists f.
      assert (H : In f ends) by (rewrite E; now left). apply (in_ends _ _ _ _ HI ks HK) in H. tauto. }
    assert (EL : last_comp members a = end_comps (own_attrs a) ends).
    { unfold last_comp. rewrite EK. destruct ends as [|f l] eqn:E; [reflexivity|].
      destruct (ends_ne _ _ _ _ HC HI ks HK (HN ltac:(discriminate))) as (_ & K & _). fold ends in K. rewrite E in K.
      cbn [end_comps]. destruct (join [underscore] (map (comp (own_attrs a)) (f :: l))) as [|c s] eqn:EJ; [contradiction|]. reflexivity. }
    split; [exact EL|].
    assert (HP : Forall plain (last_comp members a)).
    { rewrite EL. destruct ends as [|f l] eqn:E; [constructor|].
      destruct (ends_ne _ _ _ _ HC HI ks HK (HN ltac:(discriminate))) as (_ & _ & P). fold ends in P. rewrite E in P.
      cbn [end_comps]. constructor; [exact P|constructor]. }
    split; [exact HP|]. split.
    - intros H. destruct (ends_ne _ _ _ _ HC HI ks HK H) as (N & _). fold ends in N. rewrite EL. destruct ends; [contradiction|discriminate].
    - rewrite EK, EL. destruct ends; reflexivity.
  Qed.

  Definition comps_fit (members : list member) (a : sattrs) : Prop :=
    Forall plain (ncomps members a) /\ ncomps members a <> [] /\
    nested_string members a = Ok (path_text false (ncomps members a)).
  Definition member_fit (a : sattrs) (m : member) : Prop :=
    match m with
    | MField _ => True
    | MStruct n req k p t con => t = false /\ k = false /\ exists members inherited b, con = Some (members, inherited) /\
        gd_get streq a n = Some (SInst b) /\ comps_fit members b
    end.

  Lemma member_texts members a : class_fit (own_fields members) -> inst_ok (own_fields members) (own_attrs a) ->
    forall m, In m members -> member_fit a m ->
    Forall plain (member_comps m a) /\
    member_string m a = Ok (match member_comps m a with [] => None | cs => Some (path_text false cs) end).
  Proof.
    intros HC HI m Hm HF. destruct m as [f|n req k p t con].
    - assert (Hf : In f (own_fields members)) by now apply own_in. cbn [member_comps member_string].
      destruct (pos_field f) eqn:Ep.
      + pose proof (pos_set _ _ _ _ HI f Hf Ep) as Es. split.
        * pose proof (pos_plain _ _ _ _ HC HI) as HP. rewrite Forall_forall in HP.
          constructor; [|constructor]. apply HP, in_map, filter_In. tauto.
        * unfold pos_field in Ep. apply andb_true_iff in Ep as [E1 E2]. apply negb_true_iff in E1. rewrite E1, E2. cbn [orb negb].
          unfold isset in Es. destruct (get_attr (own_attrs a) (f_name f)) as [v|] eqn:Ev; [|discriminate].
          rewrite (stringify_ok _ _ _ _ HI f v Hf E1 Ev). reflexivity.
      + split; [constructor|]. unfold pos_field in Ep.
        replace (f_transient f || negb (f_positional f)) with true; [reflexivity|].
        destruct (f_transient f), (f_positional f); cbn in *; congruence.
    - destruct HF as (-> & -> & ms & inh & b & -> & Eb & C1 & C2 & C3). rewrite member_string_struct. cbn [member_comps].
      rewrite Eb, C3. cbn [bind]. fold (ncomps ms b). split; [exact C1|].
      destruct (ncomps ms b); [contradiction|reflexivity].
  Qed.

  Lemma strings_fit members a : nested_ok members a -> comps_fit members a.
  Proof.
    apply (nested_mut literal_eval uninumeric is_float comps_fit member_fit).
    - clear members a. intros members a HC HI HA HF HS HX _ HM.
      destruct (last_ok members a HC HI) as (ks & _ & _ & EL & PL & NL & EK).
      assert (HT : forall l, incl l members -> Forall plain (flat_map (fun x => member_comps x a) l) /\
        member_strings l a = Ok (map (path_text false) (filter some_comps (map (fun x => member_comps x a) l)))).
      { induction l as [|m l IH]; intros Hl; [split; [constructor|reflexivity]|].
        assert (Hm : In m members) by (apply Hl; now left).
        destruct (IH (fun x H => Hl x (or_intror H))) as [I1 I2].
        destruct (member_texts members a HC HI m Hm (HM m Hm)) as [M1 M2].
        cbn [flat_map member_strings map filter]. rewrite M2, I2. cbn [bind]. split; [apply Forall_app; now split|].
        destruct (member_comps m a); reflexivity. }
      destruct (HT members (fun x H => H)) as [T1 T2].
      assert (P : Forall plain (ncomps members a)) by (apply Forall_app; now split).
      split; [exact P|]. split.
      + destruct HS as ([f|n req k p t con] & H1 & H2).
        * destruct (f_positional f) eqn:Ep.
          -- assert (X : In (comp (own_attrs a) f) (ncomps members a)).
             { apply in_app_iff. left. apply in_flat_map. exists (MField f). split; [exact H1|]. cbn [member_comps].
               unfold pos_field. unfold shown in H2. rewrite H2, Ep. now left. }
             intros E. rewrite E in X. exact X.
          -- intros E. apply app_eq_nil in E as [_ E]. apply NL in E; [exact E|]. exists f. split; [now apply own_in|]. tauto.
        * destruct (HM _ H1) as (_ & _ & ms & inh & b & -> & Eb & _ & C2 & _).
          intros E. apply app_eq_nil in E as [E _].
          apply C2. destruct (ncomps ms b) as [|c cs] eqn:EN; [reflexivity|]. exfalso.
          assert (X : In c (flat_map (fun x => member_comps x a) members)).
          { apply in_flat_map. eexists. split; [exact H1|]. cbn [member_comps]. rewrite Eb. fold (ncomps ms b). rewrite EN. now left. }
          rewrite E in X. exact X.
      + unfold nested_string. rewrite T2. cbn [bind]. unfold string_of_parts. rewrite EK. cbn [bind].
        set (css := filter some_comps (map (fun x => member_comps x a) members) ++ filter some_comps [last_comp members a]).
        assert (EC : concat css = ncomps members a).
        { unfold css, ncomps. rewrite concat_app, !concat_some, <- flat_map_concat_map. cbn [concat]. now rewrite app_nil_r. }
        assert (EM : match match last_comp members a with [] => [] | c :: _ => c end with
                     | [] => map (path_text false) (filter some_comps (map (fun x => member_comps x a) members))
                     | _ => map (path_text false) (filter some_comps (map (fun x => member_comps x a) members)) ++
                            [match last_comp members a with [] => [] | c :: _ => c end]
                     end = map (path_text false) css).
        { unfold css. rewrite map_app. rewrite EL in PL |- *.
          destruct (filter np_field (own_fields members) ++ ks) as [|f l]; cbn [end_comps] in *.
          - cbn. now rewrite app_nil_r.
          - apply Forall_inv in PL. destruct PL as [N _].
            destruct (join [underscore] (map (comp (own_attrs a)) (f :: l))) as [|c s]; [now destruct (N eq_refl)|reflexivity]. }
        cbv zeta. match goal with |- Ok (match ?X with [] => _ | _ :: _ => _ end) = _ =>
          replace X with (map (path_text false) css) by (symmetry; exact EM) end.
        rewrite <- EC. f_equal. apply join_paths. apply Forall_forall. intros cs Hcs.
        assert (Hin : In cs (map (fun x => member_comps x a) members ++ [last_comp members a]) /\ some_comps cs = true).
        { unfold css in Hcs. rewrite in_app_iff, !filter_In in Hcs. rewrite in_app_iff. tauto. }
        destruct Hin as [Hin Hs]. split; [intros ->; discriminate|]. apply in_app_iff in Hin as [Hin|[<-|[]]]; [|exact PL].
        apply in_map_iff in Hin as (m & <- & Hm). now apply (member_texts members a HC HI m Hm (HM m Hm)).
    - intros a0 f. exact I.
    - intros a0 n req ms inh b Eb _ HC Hinh. split; [reflexivity|]. split; [reflexivity|]. exists ms, inh, b. tauto.
  Qed.
End strings.
