(** Names with numbers at the end, and the headers of log files. *)
From Verif Require Import Proofs.StrFacts Proofs.WalkFacts Spec.HeadersSpec.
Open Scope Z_scope.

Section facts.
  Variable literal_eval : pystr -> option pval.
  Variable uni : pystr -> option Z.
  Variable uninumeric : pystr -> bool.
  Variable to_str : pval -> pystr.
  Notation de_number := (de_number literal_eval uni uninumeric).
  Notation numeric_char := (numeric_char uninumeric).
  Notation number_text := (number_text uninumeric).
  Notation name_end := (name_end uninumeric).

  Lemma end_spec c rest : ~ numeric_char c -> c <> dot -> forall ds passed, Forall (fun c => numeric_char c \/ c = dot) ds ->
    number_end uninumeric (rev ds ++ c :: rest) passed = Ok (ds ++ passed, c :: rest).
  Proof.
    intros Hc Hd. intros ds. induction ds as [|d ds IH] using rev_ind; intros passed HF.
    - cbn [rev app number_end]. destruct (isnumeric uninumeric [c]) eqn:E; [contradiction|]. now rewrite (proj2 (Z.eqb_neq c dot) Hd).
    - apply Forall_app in HF as [HF H1]. rewrite rev_app_distr. cbn [rev app number_end]. inversion H1 as [|? ? HX _]; subst.
      replace (isnumeric uninumeric [d] || (d =? dot)) with true; [rewrite IH by exact HF; now rewrite <- app_assoc|].
      destruct HX as [HX| ->]; [unfold HeadersSpec.numeric_char in HX; now rewrite HX|]. now rewrite orb_true_r.
  Qed.
  Lemma end_none : forall ds passed, Forall (fun c => numeric_char c \/ c = dot) ds -> number_end uninumeric (rev ds) passed = Err IndexError.
  Proof.
    induction ds as [|d ds IH] using rev_ind; intros passed HF; [reflexivity|]. apply Forall_app in HF as [HF H1]. rewrite rev_app_distr. cbn [rev app number_end]. inversion H1 as [|? ? HX _]; subst.
    replace (isnumeric uninumeric [d] || (d =? dot)) with true; [now apply IH|]. destruct HX as [HX| ->]; [unfold HeadersSpec.numeric_char in HX; now rewrite HX|]. now rewrite orb_true_r.
  Qed.
  Lemma last_numeric p ds : number_text ds -> exists c l, rev (p ++ ds) = c :: l /\ isnumeric uninumeric [c] = true.
  Proof. intros (_ & ds' & c & -> & Hc). exists c, (rev (p ++ ds')). split; [|exact Hc]. now rewrite app_assoc, rev_app_distr. Qed.

  Theorem number_after p ds : name_end p -> number_text ds -> de_number (p ++ ds) = (do v <- de_string literal_eval uni uninumeric ds; Ok (p, Some v)).
  Proof.
    intros (p' & c & -> & Nc & Nd & Na) HD. destruct (last_numeric (p' ++ [c]) ds HD) as (x & l & E & Hx). unfold LogHeaders.de_number. rewrite E, Hx. cbn [negb]. rewrite <- E.
    rewrite rev_app_distr, rev_app_distr. cbn [rev app]. rewrite end_spec by (assumption || apply HD). cbn [bind]. rewrite (proj2 (Z.eqb_neq c dash) Na), app_nil_r. cbn [rev]. now rewrite rev_involutive.
  Qed.
  Theorem number_dash p ds : ~ numeric_char dash -> number_text ds -> de_number (p ++ dash :: ds) = (do v <- de_string literal_eval uni uninumeric ds; Ok (p, Some v)).
  Proof.
    intros Nc HD. destruct (last_numeric (p ++ [dash]) ds HD) as (x & l & E & Hx). rewrite <- app_assoc in E. cbn [app] in E. unfold LogHeaders.de_number. rewrite E, Hx. cbn [negb]. rewrite <- E.
    rewrite rev_app_distr. cbn [rev]. rewrite <- app_assoc. cbn [app]. rewrite end_spec by (assumption || discriminate || apply HD). cbn [bind]. rewrite Z.eqb_refl, app_nil_r. now rewrite rev_involutive.
  Qed.
  Theorem number_none p c : ~ numeric_char c -> de_number (p ++ [c]) = Ok (p ++ [c], None).
  Proof. intros H. unfold LogHeaders.de_number. rewrite rev_app_distr. cbn [rev app]. destruct (isnumeric uninumeric [c]) eqn:E; [contradiction|reflexivity]. Qed.
  Theorem number_only ds : ds = [] \/ number_text ds -> de_number ds = Err IndexError.
  Proof.
    intros [->|HD]; [reflexivity|]. destruct (last_numeric [] ds HD) as (x & l & E & Hx). cbn [app] in E. unfold LogHeaders.de_number. rewrite E, Hx. cbn [negb]. rewrite <- E. now rewrite end_none by apply HD.
  Qed.

  (** headers *)
  Notation match_headers := (match_headers literal_eval uni uninumeric to_str).
  Notation get_headers := (get_headers literal_eval uni uninumeric to_str).
  (** [h] is one of the forms of [s] *)
  Definition form_of (s h : pystr) : Prop := h = s \/ exists prefix suffix, de_number s = Ok (prefix, suffix) /\ (h = prefix \/ h = array_name to_str prefix suffix).
  Lemma headers_gen columns subset : forall new res, match_headers columns subset new = Ok res ->
    exists found, res = new ++ found /\ (forall h, In h found -> In h columns /\ exists s, In s subset /\ form_of s h) /\
      (forall s, In s subset -> In s columns -> In s res) /\
      (forall s prefix suffix, In s subset -> ~ In s columns -> de_number s = Ok (prefix, suffix) -> (In prefix columns -> In prefix res) /\
         (~ In prefix columns -> In (array_name to_str prefix suffix) columns -> In (array_name to_str prefix suffix) res)) /\ (length found <= length subset)%nat.
  Proof.
    induction subset as [|s subset IH]; intros new res E; cbn [LogHeaders.match_headers] in E.
    - injection E as <-. exists []. rewrite app_nil_r. split; [reflexivity|]. split; [easy|]. split; [easy|]. split; [easy|cbn; lia].
    - assert (Step : forall h, match_headers columns subset (new ++ [h]) = Ok res -> In h columns -> form_of s h ->
        exists found, res = new ++ found /\ (forall h, In h found -> In h columns /\ exists s', In s' (s :: subset) /\ form_of s' h) /\ In h res /\
          (forall s, In s subset -> In s columns -> In s res) /\
          (forall s prefix suffix, In s subset -> ~ In s columns -> de_number s = Ok (prefix, suffix) -> (In prefix columns -> In prefix res) /\
             (~ In prefix columns -> In (array_name to_str prefix suffix) columns -> In (array_name to_str prefix suffix) res)) /\ (length found <= length (s :: subset))%nat).
      { intros h EM Hh HF. destruct (IH _ _ EM) as (found & -> & I1 & I2 & I3 & I4). exists (h :: found). split; [now rewrite <- app_assoc|]. split.
        - intros x [<-|Hx]; [split; [exact Hh|]; exists s; split; [now left|exact HF]|]. destruct (I1 x Hx) as (J1 & s' & J2 & J3). split; [exact J1|]. exists s'. split; [now right|exact J3].
        - split; [apply in_or_app; left; apply in_or_app; right; now left|]. split; [exact I2|]. split; [exact I3|cbn [length]; lia]. }
      destruct (existsb (streq s) columns) eqn:ES.
      + apply exists_name in ES. destruct (Step s E ES (or_introl eq_refl)) as (found & E1 & E2 & E3 & E4 & E5 & E6). exists found. split; [exact E1|]. split; [exact E2|].
        split; [intros x [<-|Hx] Hc; [exact E3|now apply E4]|]. split; [|exact E6]. intros x p q [<-|Hx] Nx; [contradiction|now apply E5].
      + assert (NS : ~ In s columns) by (intros H; apply exists_name in H; congruence). destruct (de_number s) as [[prefix suffix]|] eqn:ED; [|discriminate E]. cbn [bind] in E.
        destruct (existsb (streq prefix) columns) eqn:EP; cbn [andb] in E; [destruct (existsb (streq prefix) new) eqn:EN; cbn [negb] in E|].
        * (* the prefix is already there *)
          apply exists_name in EP, EN.
          assert (HR : exists found, res = new ++ found /\ (forall h, In h found -> In h columns /\ exists s', In s' (s :: subset) /\ form_of s' h) /\
            (forall s, In s subset -> In s columns -> In s res) /\
            (forall s prefix suffix, In s subset -> ~ In s columns -> de_number s = Ok (prefix, suffix) -> (In prefix columns -> In prefix res) /\
               (~ In prefix columns -> In (array_name to_str prefix suffix) columns -> In (array_name to_str prefix suffix) res)) /\ (length found <= length (s :: subset))%nat).
          { destruct (existsb (streq _) columns) eqn:EA in E.
            - apply exists_name in EA. destruct (Step _ E EA) as (found & E1 & E2 & _ & E4 & E5 & E6); [right; exists prefix, suffix; split; [exact ED|now right]|]. exists found. repeat (split; [assumption|]). exact E6.
            - destruct (IH _ _ E) as (found & -> & I1 & I2 & I3 & I4). exists found. split; [reflexivity|]. split; [|split; [exact I2|split; [exact I3|cbn [length]; lia]]].
              intros x Hx. destruct (I1 x Hx) as (J1 & s' & J2 & J3). split; [exact J1|]. exists s'. split; [now right|exact J3]. }
          destruct HR as (found & -> & R1 & R2 & R3 & R4). exists found. split; [reflexivity|]. split; [exact R1|]. split; [intros x [<-|Hx] Hc; [contradiction|now apply R2]|]. split; [|exact R4].
          intros x p q [<-|Hx] Nx Ex; [|now apply R3 with (1 := Hx)]. rewrite ED in Ex. injection Ex as <- <-. split; [intros _; apply in_or_app; now left|contradiction].
        * apply exists_name in EP. destruct (Step prefix E EP) as (found & E1 & E2 & E3 & E4 & E5 & E6); [right; exists prefix, suffix; split; [exact ED|now left]|]. exists found. split; [exact E1|]. split; [exact E2|].
          split; [intros x [<-|Hx] Hc; [contradiction|now apply E4]|]. split; [|exact E6]. intros x p q [<-|Hx] Nx Ex; [|now apply E5 with (1 := Hx)]. rewrite ED in Ex. injection Ex as <- <-. split; [intros _; exact E3|contradiction].
        * assert (NP : ~ In prefix columns) by (intros H; apply exists_name in H; congruence). destruct (existsb (streq _) columns) eqn:EA in E.
          -- apply exists_name in EA. destruct (Step _ E EA) as (found & E1 & E2 & E3 & E4 & E5 & E6); [right; exists prefix, suffix; split; [exact ED|now right]|]. exists found. split; [exact E1|]. split; [exact E2|].
             split; [intros x [<-|Hx] Hc; [contradiction|now apply E4]|]. split; [|exact E6]. intros x p q [<-|Hx] Nx Ex; [|now apply E5 with (1 := Hx)]. rewrite ED in Ex. injection Ex as <- <-. split; [contradiction|intros _ _; exact E3].
          -- destruct (IH _ _ E) as (found & -> & I1 & I2 & I3 & I4). exists found. split; [reflexivity|]. split.
             { intros x Hx. destruct (I1 x Hx) as (J1 & s' & J2 & J3). split; [exact J1|]. exists s'. split; [now right|exact J3]. }
             split; [intros x [<-|Hx] Hc; [contradiction|now apply I2]|]. split; [|cbn [length]; lia]. intros x p q [<-|Hx] Nx Ex; [|now apply I3 with (1 := Hx)]. rewrite ED in Ex. injection Ex as <- <-. split; [contradiction|].
             intros _ H. apply exists_name in H. unfold array_name in H. congruence.
  Qed.
  Theorem headers_found columns subset res : subset <> [] -> get_headers (Some columns) subset = Ok res ->
    (forall h, In h res -> In h columns /\ exists s, In s subset /\ form_of s h) /\
    (forall s, In s subset -> In s columns -> In s res) /\
    (forall s prefix suffix, In s subset -> ~ In s columns -> de_number s = Ok (prefix, suffix) -> (In prefix columns -> In prefix res) /\
       (~ In prefix columns -> In (array_name to_str prefix suffix) columns -> In (array_name to_str prefix suffix) res)) /\ (length res <= length subset)%nat.
  Proof.
    intros HN E. unfold LogHeaders.get_headers in E. destruct subset as [|s subset]; [contradiction|]. destruct (headers_gen columns (s :: subset) [] res E) as (found & -> & H1 & H2 & H3 & H4). cbn [app] in *.
    split; [exact H1|]. split; [exact H2|]. now split.
  Qed.
  Theorem headers_all columns subset : get_headers (Some columns) [] = Ok columns /\ get_headers None subset = Ok [].
  Proof. now split. Qed.
  Theorem headers_same columns subset : subset <> [] -> incl subset columns -> get_headers (Some columns) subset = Ok subset.
  Proof.
    intros HN HI. unfold LogHeaders.get_headers. destruct subset as [|s subset]; [contradiction|]. change (s :: subset) with ([] ++ (s :: subset)) at 2. generalize (@nil pystr). clear HN.
    revert HI. generalize (s :: subset). clear. induction l as [|x l IH]; intros HI new; cbn [LogHeaders.match_headers]; [now rewrite app_nil_r|].
    rewrite (proj2 (exists_name x columns)) by (apply HI; now left). rewrite IH by (intros y Hy; apply HI; now right). now rewrite <- app_assoc.
  Qed.

  (** file_complete *)
  Notation file_complete := (file_complete literal_eval uni uninumeric to_str).
  Theorem complete_plain p there columns exc : file_complete p there columns 0 [] exc =
    (if match p with [] => true | _ => false end then if exc then Err ValueError else Ok false else if there then Ok true else if exc then Err OSError else Ok false).
  Proof. unfold LogHeaders.file_complete. destruct p; [reflexivity|]. now destruct there. Qed.
  Theorem complete_headers p there columns req : req <> [] -> file_complete p there (Some columns) 0 req false = Ok true <->
    p <> [] /\ there = true /\ exists h hs, get_headers (Some columns) req = Ok (h :: hs).
  Proof.
    intros HN. unfold LogHeaders.file_complete. destruct p as [|a p]; [split; [discriminate|now intros [H _]]|]. destruct there; cbn [negb]; [|split; [discriminate|now intros (_ & H & _)]].
    destruct req as [|r req]; [contradiction|]. destruct (get_headers (Some columns) (r :: req)) as [[|h hs]|]; cbn [bind negb Z.eqb]; split; try discriminate; try (intros (_ & _ & h' & hs' & E); discriminate E).
    - intros _. split; [discriminate|]. split; [reflexivity|]. now exists h, hs.
    - reflexivity.
  Qed.
  (** all headers there: complete *)
  Theorem complete_all p columns req : p <> [] -> req <> [] -> incl req columns -> file_complete p true (Some columns) 0 req false = Ok true.
  Proof.
    intros Hp Hr HI. apply complete_headers; [exact Hr|]. split; [exact Hp|]. split; [reflexivity|]. rewrite headers_same by assumption. destruct req as [|h hs]; [contradiction|]. now exists h, hs.
  Qed.
  (** one of the headers is enough *)
  Theorem complete_one p columns h hs : p <> [] -> In h columns -> Forall (fun s => exists x, de_number s = Ok x) hs -> file_complete p true (Some columns) 0 (h :: hs) false = Ok true.
  Proof.
    intros Hp Hh HF. apply complete_headers; [discriminate|]. split; [exact Hp|]. split; [reflexivity|]. unfold LogHeaders.get_headers. cbn [LogHeaders.match_headers]. rewrite (proj2 (exists_name h columns) Hh). cbn [app].
    enough (G : forall hs new, Forall (fun s => exists x, de_number s = Ok x) hs -> exists res, match_headers columns hs (h :: new) = Ok (h :: res)) by (destruct (G hs [] HF) as [res E]; now exists h, res).
    clear. induction hs as [|s hs IH]; intros new HF; [now exists new|]. inversion HF as [|? ? [[p q] Hx] HF']; subst. cbn [LogHeaders.match_headers]. rewrite Hx. cbn [bind].
    destruct (existsb (streq s) columns); [apply (IH (new ++ [s])), HF'|]. destruct (_ && _); [apply (IH (new ++ [p])), HF'|]. destruct (existsb _ columns); [apply IH, HF'|apply (IH new), HF'].
  Qed.
  (** with a number of lines it never succeeds *)
  Theorem complete_lines p columns n req exc b : n <> 0 -> file_complete p true columns n req exc = Ok b -> b = false.
  Proof.
    intros Hn. unfold LogHeaders.file_complete. destruct p; [destruct exc; [discriminate|now intros [= <-]]|]. cbn [negb]. destruct (match req with [] => Ok true | _ => _ end) as [found|]; cbn [bind]; [|discriminate].
    destruct found; cbn [negb]; [|destruct exc; [discriminate|now intros [= <-]]]. rewrite (proj2 (Z.eqb_neq n 0) Hn). discriminate.
  Qed.
  Theorem complete_lines_raise p columns n exc : p <> [] -> n <> 0 -> file_complete p true columns n [] exc = Err NameError.
  Proof. intros Hp Hn. unfold LogHeaders.file_complete. destruct p; [contradiction|]. cbn [negb bind]. now rewrite (proj2 (Z.eqb_neq n 0) Hn). Qed.
  Theorem complete_missing_raise p columns n req : p <> [] -> req <> [] -> get_headers columns req = Ok [] -> file_complete p true columns n req true = Err NameError.
  Proof. intros Hp Hr HG. unfold LogHeaders.file_complete. destruct p; [contradiction|]. destruct req; [contradiction|]. cbn [negb]. rewrite HG. reflexivity. Qed.
End facts.
