(** Structures with other Structures in them that are not read back. *)
From Verif Require Import Proofs.DictFacts Proofs.ParamsFacts Proofs.StrFacts Proofs.PyFacts Proofs.FileNamesFacts
  Proofs.PathFacts Proofs.StructuresFacts Proofs.StructuresRead Proofs.StructuresTop Proofs.StructuresNeg Proofs.NestedFacts Proofs.NestedRead
  Proofs.NestedTop Spec.NestedSpec.
Open Scope Z_scope.

(** ** Structs without constructor, which is what all Structs of the repository are *)
Lemma unmade_unread literal_eval uni uninumeric pval_eq deep n req k p : forall members st,
  In (MStruct n req k p false None) members ->
  forall st', members_read literal_eval uni uninumeric pval_eq deep members st <> Ok st'.
Proof.
  induction members as [|m l IH]; intros st H st'; [destruct H|]. cbn [members_read].
  destruct (members_read literal_eval uni uninumeric pval_eq deep l st) as [st1|e] eqn:E; cbn [bind]; [|discriminate].
  destruct H as [->|H]; [discriminate|]. exfalso. exact (IH st H st1 E).
Qed.
Theorem unmade_never_read literal_eval uni uninumeric pval_eq deep n req k p members d params :
  In (MStruct n req k p false None) members ->
  nested_from_dir literal_eval uni uninumeric pval_eq members deep d <> Ok params.
Proof.
  intros H E. unfold nested_from_dir, nested_params in E.
  destruct (nested_npnk members) as [o|]; cbn [bind] in E; [|discriminate].
  match type of E with bind ?x _ = _ => destruct x as [[[ds ps] ks]|]; cbn [bind] in E; [|discriminate] end.
  match type of E with bind ?x _ = _ => destruct x as [st|] eqn:E2; cbn [bind] in E; [|discriminate] end.
  now apply (unmade_unread _ _ _ _ _ _ _ _ _ _ _ H) in E2.
Qed.

(** ** With simple oracles *)
Notation nmake := (nested_construct simple_eval (fun _ => None) (fun _ => false) (fun _ _ => false) (fun _ => None) (fun _ => false) Some
  (fun _ => []) (fun _ => false) (fun _ => false)).
Notation nback := (nested_from_dir_string simple_eval (fun _ => None) (fun _ => false) (fun _ _ => false) (fun _ => None) (fun _ => false) Some
  (fun _ => []) (fun _ => false) (fun _ => false)).
Notation base_only := [lit "base_dir"].

(** ** The default flags: the name of the Struct stays in the path *)
Section named_struct.
  Variable literal_eval : pystr -> option pval.
  Variable uni : pystr -> option Z.
  Variable uninumeric : pystr -> bool.
  Variable pval_eq : pval -> pval -> bool.
  Variable is_float : pystr -> bool.

  Theorem name_left (n : string) req members inherited b base : evaluates literal_eval ->
    nested_ok literal_eval uninumeric is_float members b -> NoDup (all_names members) -> ~ In (lit "base_dir") (all_names members) ->
    ident (lit n) -> normal_dir base ->
    exists d params, nested_string [declared n req members inherited] [holds n b] = Ok d /\
      nested_from_dir literal_eval uni uninumeric pval_eq [declared n req members inherited] true (path_join2 base d) = Ok params /\
      gd_get streq params (lit "base_dir") = Some (VStr (path_join2 base (lit n))).
  Proof.
    intros HE HO HN HB ID (rooted & Y & -> & HY).
    destruct (strings_fit literal_eval uninumeric is_float members b HO) as (C1 & C2 & C3).
    assert (HX : contains (lit "txt") (path_ext (path_text false (ncomps members b))) = false) by (inversion HO; subst; eauto).
    assert (Pn : plain (lit n)).
    { pose proof (fun c => ident_no c (lit n) ID) as NI. destruct ID as (I1 & I2). split; [exact I1|]. split; [apply NI; now left|].
      split; intros E; rewrite E in I2; apply Forall_inv in I2; unfold dot in I2; lia. }
    assert (HYn : Forall plain (Y ++ [lit n])) by (apply Forall_app; split; [exact HY|constructor; [exact Pn|constructor]]).
    destruct (reads_all literal_eval uni uninumeric pval_eq (fun _ => None) is_float (fun _ => None) (fun _ => []) (fun _ => false)
      HE members b HO HN HB rooted (Y ++ [lit n]) HYn) as (ps & K1 & K2 & K3 & K4 & K5).
    assert (P1 : Forall plain (lit n :: ncomps members b)) by now constructor.
    assert (P2 : Forall plain (Y ++ lit n :: ncomps members b)) by (apply Forall_app; now split).
    assert (J1 : path_join2 (lit n) (path_text false (ncomps members b)) = path_text false (lit n :: ncomps members b)).
    { change (lit n :: ncomps members b) with ([lit n] ++ ncomps members b).
      rewrite <- (join_path false [lit n] (ncomps members b) (Forall_cons _ Pn (Forall_nil _)) C1 C2). reflexivity. }
    exists (path_text false (lit n :: ncomps members b)). eexists. split; [|split].
    - unfold nested_string, declared. cbn [member_strings]. rewrite member_string_struct. unfold holds. cbn [gd_get]. rewrite streq_refl.
      rewrite C3. cbn [bind]. rewrite J1. unfold string_of_parts. cbn. reflexivity.
    - rewrite join_path by (try assumption; discriminate).
      unfold nested_from_dir, nested_params.
      assert (Hext : contains (lit "txt") (path_ext (path_text rooted (Y ++ lit n :: ncomps members b))) = false).
      { clear K1 C3 J1. destruct (exists_last C2) as (l & c & El). rewrite El in C1, HX |- *. apply Forall_app in C1 as [C1 C4].
        inversion C4; subst. rewrite app_comm_cons, app_assoc, ext_path.
        - now rewrite ext_path in HX.
        - apply Forall_app. split; [exact HY|now constructor].
        - assumption. }
      rewrite Hext, (norm_path rooted _ P2) by (intros E; apply app_eq_nil in E as [_ E]; discriminate).
      unfold declared. cbn [nested_npnk filter negb andb own_fields flat_map app has_keyword existsb bind map members_read].
      rewrite member_read_struct. cbn [d_string]. rewrite <- app_assoc in K1. cbn [app] in K1. rewrite K1.
      unfold gd_lookup. rewrite K3. cbn [bind d_npnk d_string]. reflexivity.
    - rewrite (get_set streq streq_spec), streq_refl. do 2 f_equal. 
      symmetry. apply (join_path rooted Y [lit n]); [exact HY|constructor; [exact Pn|constructor]|discriminate].
  Qed.
End named_struct.

(** the positional field before it is read from the name *)
Lemma name_taken : let members := [just (required (positional (unnamed (named "exp" CStr))));
                                   declared "env" true [just (named "alpha" CInt)] base_only] in
  let a := [value "exp" (VStr (lit "coin")); holds "env" [value "alpha" (VInt 1)]] in
  nested_string members a = Ok (lit "coin/env/alpha-1") /\
  exists b, nback members base_only (lit "/data/coin/env/alpha-1") = Ok b /\
    get_value b (lit "exp") = Some (VStr (lit "env")) /\ get_value b (lit "base_dir") = Some (VStr (lit "/data/coin")).
Proof. split; [vm_compute; reflexivity|]. eexists. repeat apply conj; vm_compute; reflexivity. Qed.

(** ** A Struct with keyword=False that is not made positional is taken for the nameless field *)
Lemma struct_nameless : let members := [MStruct (lit "env") true false false false (Some ([just (named "alpha" CInt)], base_only));
                                        just (named "seed" CInt)] in
  nested_string members [holds "env" [value "alpha" (VInt 1)]; value "seed" (VInt 5)] = Ok (lit "alpha-1/seed-5") /\
  exists b e, nback members base_only (lit "/data/alpha-1/seed-5") = Ok b /\ gd_get streq b (lit "env") = Some (SInst e) /\
    get_value e (lit "alpha") = None /\ get_value b (lit "seed") = None.
Proof. split; [vm_compute; reflexivity|]. eexists. eexists. repeat apply conj; vm_compute; reflexivity. Qed.

(** ** The same name on two levels: the field gets the value of the field inside, which gets none *)
Lemma same_name : let members := [just (named "alpha" CInt); meant "env" true [just (named "alpha" CInt)] base_only] in
  nested_string members [value "alpha" (VInt 5); holds "env" [value "alpha" (VInt 1)]] = Ok (lit "alpha-1/alpha-5") /\
  exists b e, nback members base_only (lit "/data/alpha-1/alpha-5") = Ok b /\ gd_get streq b (lit "env") = Some (SInst e) /\
    get_value b (lit "alpha") = Some (VInt 1) /\ get_value e (lit "alpha") = None.
Proof. split; [vm_compute; reflexivity|]. eexists. eexists. repeat apply conj; vm_compute; reflexivity. Qed.

(** two Structs of one class come back with the values of the first *)
Lemma same_class : let members := [meant "train" true [just (named "alpha" CInt)] base_only;
                                   meant "test" true [just (named "alpha" CInt)] base_only] in
  nested_string members [holds "train" [value "alpha" (VInt 1)]; holds "test" [value "alpha" (VInt 5)]] = Ok (lit "alpha-1/alpha-5") /\
  exists b e1 e2, nback members base_only (lit "/data/alpha-1/alpha-5") = Ok b /\
    gd_get streq b (lit "train") = Some (SInst e1) /\ gd_get streq b (lit "test") = Some (SInst e2) /\
    get_value e1 (lit "alpha") = Some (VInt 1) /\ get_value e2 (lit "alpha") = Some (VInt 1).
Proof. split; [vm_compute; reflexivity|]. eexists. eexists. eexists. repeat apply conj; vm_compute; reflexivity. Qed.

(** ** An optional Struct that is not set takes the directory of the field before it *)
Lemma unset_struct : let members := [just (required (positional (unnamed (named "exp" CStr))));
    meant "env" false [just (required (positional (unnamed (named "kind" CStr))))] base_only; just (named "seed" CInt)] in
  nested_string members [value "exp" (VStr (lit "coin")); value "seed" (VInt 5)] = Ok (lit "coin/seed-5") /\
  exists b e, nback members base_only (lit "/data/coin/seed-5") = Ok b /\ gd_get streq b (lit "env") = Some (SInst e) /\
    get_value e (lit "kind") = Some (VStr (lit "coin")) /\ get_value b (lit "exp") = Some (VStr (lit "data")) /\
    get_value b (lit "base_dir") = Some (VStr (lit "/")).
Proof. split; [vm_compute; reflexivity|]. eexists. eexists. repeat apply conj; vm_compute; reflexivity. Qed.

(** ** An example: two levels *)
Definition text_field (n : string) := required (positional (unnamed (named n CStr))).
Definition data_class := [just (text_field "file"); just (named "n" CInt)].
Definition env_class := [just (text_field "kind"); meant "data" true data_class base_only; just (named "depth" CInt)].
Definition exp_class := [just (text_field "exp"); meant "env" true env_class base_only; just (named "seed" CInt)].
Definition my_data := [value "file" (VStr (lit "book1")); value "n" (VInt 3)].
Definition my_env := [value "kind" (VStr (lit "tree")); holds "data" my_data; value "depth" (VInt 48)].
Definition my_exp := [value "exp" (VStr (lit "coin_1")); holds "env" my_env; value "seed" (VInt (-7))].

Lemma pair_fit p q s n t (fs := [text_field p; named q CInt]) (a := [attr p (VStr (lit s)); attr q (VInt n)]) :
  streq (lit p) (lit q) = false -> ~ In (lit "base_dir") [lit p; lit q] -> ident (lit p) -> ident (lit q) ->
  plain (lit s) -> Forall safe (lit s) -> value_text (VStr (lit s)) (lit s) -> value_text (VInt n) t ->
  ~ In underscore t /\ t <> [dot] /\ t <> [dot; dot] ->
  class_fit fs /\ inst_ok simple_eval (fun _ => false) fs a /\ all_kept simple_eval (fun _ => false) (fun _ => false) fs a.
Proof.
  intros E HB Ip Iq HP HS T1 T2 HT.
  assert (G1 : get_attr a (f_name (text_field p)) = Some (VStr (lit s))).
  { unfold get_attr, a, attr, text_field. cbn [gd_get f_name required positional unnamed named]. now rewrite streq_refl. }
  assert (G2 : get_attr a (f_name (named q CInt)) = Some (VInt n)).
  { unfold get_attr, a, attr. cbn [gd_get f_name named]. now rewrite E, streq_refl. }
  split; [|split].
  - constructor; [| |exact HB|].
    + constructor; [|constructor; [intros []|constructor]]. intros [H|[]]. change (lit q = lit p) in H. rewrite H, streq_refl in E. discriminate.
    + intros f [<-|[<-|[]]]; assumption.
    + intros f g [<-|[<-|[]]] _ (_ & N1 & N2); discriminate.
  - constructor.
    + intros f [<-|[<-|[]]] _ X; [rewrite G1; discriminate|discriminate].
    + intros f [<-|[<-|[]]] (_ & N1 & N2); discriminate.
    + intros f [<-|[<-|[]]] _ X; [rewrite G1|rewrite G2]; discriminate.
    + intros _. exists (named q CInt), (VInt n), t. split; [right; now left|]. split; [reflexivity|]. split; [reflexivity|].
      split; [exact G2|]. split; [exact T2|now left].
    + intros f v [<-|[<-|[]]] _ Ev.
      * rewrite G1 in Ev. injection Ev as <-. exists (lit s). split; [exact T1|exact HP].
      * rewrite G2 in Ev. injection Ev as <-. exists t. split; [exact T2|exact HT].
  - intros f [<-|[<-|[]]]; [rewrite G1|rewrite G2]; (split; [|intros X; discriminate X]); intros _;
      (split; [|split; [reflexivity|split; [intros ok X; discriminate X|split]]]).
    + exists (lit s). split; [reflexivity|exact HS].
    + intros _ X. discriminate X.
    + exact I.
    + left. eexists. reflexivity.
    + intros X. discriminate X.
    + split; [|intros l u X; discriminate X]. destruct (Z.ltb_spec n 0); [now apply rest_negative|]. apply rest_item. now constructor.
Qed.

Ltac pair_ok s t :=
  lazymatch goal with |- NestedSpec.nested_ok _ _ _ ?ms ?a =>
    let fs := eval cbv [own_fields flat_map app data_class env_class exp_class just meant] in (own_fields ms) in
    lazymatch fs with [text_field ?p; named ?q CInt] =>
      lazymatch a with context[value q (VInt ?n)] =>
        let F1 := fresh in let F2 := fresh in let F3 := fresh in destruct (pair_fit p q s n t) as (F1 & F2 & F3);
          [reflexivity|cbn; intuition discriminate|apply ident_dec; [discriminate|reflexivity]|apply ident_dec; [discriminate|reflexivity]
          |apply plain_dec; [discriminate|reflexivity..]|apply safe_dec; reflexivity|apply value_text_dec; vm_compute; reflexivity
          |apply value_text_dec; vm_compute; reflexivity|repeat split; try discriminate; now apply not_in_dec
          |apply (NestedOk _ _ _ ms a F1 F2 F3)]
      end
    end
  end.
Lemma two_levels : nested_ok simple_eval (fun _ => false) (fun _ => false) exp_class my_exp /\
  NoDup (all_names exp_class) /\ ~ In (lit "base_dir") (all_names exp_class) /\
  (forall n, In n base_only -> ~ In n (map member_name exp_class)) /\ normal_dir (lit "/data/x") /\ evaluates simple_eval /\
  nested_string exp_class my_exp = Ok (lit "coin_1/tree/book1/n-3/depth-48/seed--7").
Proof.
  assert (HF : forall f rest ms m, just (text_field f) :: ms = MField m :: rest -> f_constant m = None)
    by (intros f rest ms m E; injection E as <- _; reflexivity).
  assert (HB : forall x, In x base_only -> x = lit "base_dir") by (intros x [<-|[]]; reflexivity).
  split; [|split; [|split; [|split; [|split; [|split]]]]].
  - unfold my_exp. pair_ok "coin_1"%string (lit "-7").
    + intros f rest E. exact (HF _ _ _ _ E).
    + eexists. split; [now left|reflexivity].
    + intros d E. vm_compute in E. injection E as <-. vm_compute. reflexivity.
    + intros m Hm. destruct Hm as [<-|[<-|[<-|[]]]]; try (apply FieldOk).
      apply StructOk with (b := my_env); [reflexivity|unfold my_env|intros x Hx; apply HB in Hx as ->; cbn; intuition discriminate].
      pair_ok "tree"%string (lit "48").
      * intros f rest E. exact (HF _ _ _ _ E).
      * eexists. split; [now left|reflexivity].
      * intros d E. vm_compute in E. injection E as <-. vm_compute. reflexivity.
      * intros m Hm. destruct Hm as [<-|[<-|[<-|[]]]]; try (apply FieldOk).
        apply StructOk with (b := my_data); [reflexivity|unfold my_data|intros x Hx; apply HB in Hx as ->; cbn; intuition discriminate].
        pair_ok "book1"%string (lit "3").
        -- intros f rest E. exact (HF _ _ _ _ E).
        -- eexists. split; [now left|reflexivity].
        -- intros d E. vm_compute in E. injection E as <-. vm_compute. reflexivity.
        -- intros m Hm. destruct Hm as [<-|[<-|[]]]; apply FieldOk.
  - cbn. repeat constructor; cbn; intuition discriminate.
  - cbn. intuition discriminate.
  - intros n Hn. apply HB in Hn as ->. cbn. intuition discriminate.
  - exists true, [lit "data"; lit "x"]. split; [reflexivity|]. repeat (constructor; [apply plain_dec; [discriminate|reflexivity..]|]). constructor.
  - apply simple_evaluates.
  - vm_compute. reflexivity.
Qed.
