(** Files in directory trees. *)
From Verif Require Import Proofs.StrFacts Proofs.PathFacts Proofs.DirsFacts Spec.WalkSpec.
Open Scope Z_scope.

Lemma NoDup_app_r {A} (l l' : list A) : NoDup (l ++ l') -> NoDup l'.
Proof. induction l as [|a l IH]; [easy|]. intros H. inversion H; subst. now apply IH. Qed.
Section tree_ind.
  Variable P : tree -> Prop.
  Hypothesis H : forall files dirs, Forall (fun d => P (snd d)) dirs -> P (Tree files dirs).
  Fixpoint tree_all (t : tree) : P t :=
    match t with
    | Tree files dirs => H files dirs
        ((fix all (ds : list (pystr * tree)) : Forall (fun d => P (snd d)) ds :=
            match ds with
            | [] => Forall_nil _
            | (d, t') :: ds' => Forall_cons (d, t') (tree_all t' : P (snd (d, t'))) (all ds')
            end) dirs)
    end.
End tree_ind.

Lemma sounds_all ds : sounds ds <-> Forall (fun d => sound (snd d)) ds.
Proof.
  induction ds as [|[d t] ds IH]; split; intros H; try constructor; inversion H; subst; try assumption; now apply IH.
Qed.
Lemma walk_eq p files dirs : walk p (Tree files dirs) = (p, files) :: flat_map (fun d => walk (path_join2 p (fst d)) (snd d)) dirs.
Proof. cbn [walk]. f_equal. induction dirs as [|[d t] ds IH]; [reflexivity|]. cbn [flat_map fst snd]. now rewrite <- IH. Qed.

Lemma flat_flat {A B C} (f : A -> list B) (g : B -> list C) l : flat_map g (flat_map f l) = flat_map (fun x => flat_map g (f x)) l.
Proof. induction l as [|a l IH]; [reflexivity|]. cbn [flat_map]. now rewrite flat_map_app, IH. Qed.

(** the text before the names below a directory *)
Definition before (base : pystr) : pystr := match base with [] => [] | _ => if ends_with slash base then base else base ++ [slash] end.
Lemma join2_plain base c : plain c -> path_join2 base c = before base ++ c.
Proof.
  intros (P1 & P2 & _). unfold path_join2. destruct c as [|a c]; [contradiction|]. cbn [starts_with].
  destruct (Z.eqb_spec a slash) as [->|N]; [destruct P2; now left|]. destruct base as [|b base]; [reflexivity|]. cbn [before].
  destruct (ends_with slash (b :: base)); [reflexivity|]. now rewrite <- app_assoc.
Qed.

Lemma before_plain base c : plain c -> before (before base ++ c) = before base ++ c ++ [slash].
Proof.
  intros (P1 & P2 & _). destruct (exists_last P1) as (s & a & ->). assert (Na : a <> slash) by (intros ->; apply P2, in_app_iff; right; now left).
  unfold before at 1. destruct (before base ++ s ++ [a]) as [|x l] eqn:E; [apply (f_equal (@length _)) in E; rewrite !app_length in E; cbn in E; lia|]. rewrite <- E.
  replace (ends_with slash (before base ++ s ++ [a])) with false; [now rewrite !app_assoc|]. unfold ends_with. rewrite app_assoc, rev_app_distr. cbn. symmetry. now apply Z.eqb_neq.
Qed.
Lemma join_text base cs : Forall plain cs -> cs <> [] -> path_join base cs = before base ++ join [slash] cs.
Proof.
  intros HF Hne. unfold path_join. revert base. induction cs as [|c cs IH]; intros base; [contradiction|]. inversion HF as [|? ? Pc HF']; subst. cbn [fold_left].
  destruct cs as [|d cs]; [cbn [fold_left join]; now apply join2_plain|]. rewrite IH by (exact HF' || discriminate).
  rewrite join2_plain, before_plain by exact Pc. change (join [slash] (c :: d :: cs)) with (c ++ [slash] ++ join [slash] (d :: cs)). now rewrite <- !app_assoc.
Qed.
Lemma join_inj base cs ds : Forall plain cs -> Forall plain ds -> cs <> [] -> ds <> [] -> path_join base cs = path_join base ds -> cs = ds.
Proof.
  intros HC HD Nc Nd E. rewrite !join_text in E by assumption. apply app_inv_head in E. now apply path_text_inj.
Qed.

Lemma files_plain t cs f : sound t -> has_file t cs f -> Forall plain cs /\ plain f.
Proof.
  intros HS HF. induction HF as [files dirs f Hf|files dirs d t cs f Hd HF IH]; inversion HS as [? ? HP HN HA]; subst; rewrite Forall_forall in HP.
  - split; [constructor|]. apply HP, in_or_app. now left.
  - apply sounds_all in HA. rewrite Forall_forall in HA. destruct (IH (HA _ Hd)) as [I1 I2]. split; [|exact I2]. constructor; [|exact I1].
    apply HP, in_or_app. right. now apply (in_map fst) in Hd.
Qed.

(** what is listed for one tree: [g] is the names chosen in a directory *)
Definition listed (g : list pystr -> list pystr) (t : tree) (base : pystr) : list pystr :=
  flat_map (fun d => map (path_join2 (fst d)) (g (snd d))) (walk base t).
Definition chosen (filename : pystr) (partial : bool) (filenames : list pystr) : list pystr :=
  if existsb (streq filename) filenames then [filename] else if partial then filter (contains filename) filenames else [].
Lemma found_eq filename partial p fs : found filename partial p fs = map (path_join2 p) (chosen filename partial fs).
Proof. unfold found, chosen. destruct (existsb _ _); [reflexivity|]. now destruct partial. Qed.
Lemma listed_eq g base files dirs : listed g (Tree files dirs) base =
  map (path_join2 base) (g files) ++ flat_map (fun d => listed g (snd d) (path_join2 base (fst d))) dirs.
Proof. unfold listed. rewrite walk_eq. cbn [flat_map fst snd]. f_equal. apply flat_flat. Qed.

(** [files_of t cs] are the files in the directory [cs] *)
Inductive at_dir : tree -> list pystr -> list pystr -> Prop :=
| at_here files dirs : at_dir (Tree files dirs) [] files
| at_there files dirs d t cs fs : In (d, t) dirs -> at_dir t cs fs -> at_dir (Tree files dirs) (d :: cs) fs.
Lemma listed_in g t : forall base p, In p (listed g t base) <-> exists cs fs f, at_dir t cs fs /\ In f (g fs) /\ p = path_join base (cs ++ [f]).
Proof.
  induction t as [files dirs IH] using tree_all. intros base p. rewrite listed_eq, in_app_iff, in_map_iff, in_flat_map. split.
  - intros [(f & <- & Hf)|([d t] & Hd & Hp)].
    + exists [], files, f. split; [constructor|]. split; [exact Hf|reflexivity].
    + rewrite Forall_forall in IH. apply (IH _ Hd) in Hp as (cs & fs & f & HA & Hf & ->). exists (d :: cs), fs, f. split; [now apply at_there with t|]. split; [exact Hf|reflexivity].
  - intros (cs & fs & f & HA & Hf & ->). inversion HA as [|? ? d t cs' ? Hd HA']; subst; [left; now exists f|]. right. exists (d, t). split; [exact Hd|].
    rewrite Forall_forall in IH. apply (IH _ Hd). now exists cs', fs, f.
Qed.
Lemma at_files t cs f : has_file t cs f <-> exists fs, at_dir t cs fs /\ In f fs.
Proof.
  split.
  - induction 1 as [files dirs f Hf|files dirs d t cs f Hd HF (fs & HA & Hf)]; [exists files; split; [constructor|exact Hf]|]. exists fs. split; [now apply at_there with t|exact Hf].
  - intros (fs & HA & Hf). induction HA as [|files dirs d t cs fs Hd HA IH]; [now constructor|]. now apply there with t, IH.
Qed.
Lemma dirs_apart files (dirs : list (pystr * tree)) d t t' : NoDup (files ++ map fst dirs) -> In (d, t) dirs -> In (d, t') dirs -> t = t'.
Proof.
  intros HN. apply NoDup_app_r in HN. induction dirs as [|[e u] ds IH]; intros H1 H2; [destruct H1|]. cbn [map fst] in HN. inversion HN as [|? ? N1 N2]; subst.
  destruct H1 as [E1|H1], H2 as [E2|H2]; [congruence|injection E1 as -> ->; destruct N1; now apply (in_map fst) in H2|injection E2 as -> ->; destruct N1; now apply (in_map fst) in H1|now apply IH].
Qed.
Lemma at_one t cs fs fs' : sound t -> at_dir t cs fs -> at_dir t cs fs' -> fs = fs'.
Proof.
  intros HS HA. revert fs'. induction HA as [|files dirs d t cs fs Hd HA IH]; intros fs' HB; inversion HB as [|? ? ? t' ? ? Hd' HB']; subst; [reflexivity|].
  inversion HS as [? ? HP HN HA']; subst. rewrite (dirs_apart _ _ _ _ _ HN Hd' Hd) in HB'. apply sounds_all in HA'. rewrite Forall_forall in HA'. apply (IH (HA' _ Hd)), HB'.
Qed.
Lemma nodup_both {A} (l l' : list A) : NoDup l -> NoDup l' -> (forall x, In x l -> ~ In x l') -> NoDup (l ++ l').
Proof.
  intros H1 H2 H. induction l as [|a l IH]; [exact H2|]. inversion H1 as [|? ? N1 N2]; subst. cbn [app]. constructor.
  - intros Ha. apply in_app_or in Ha as [Ha|Ha]; [now apply N1|]. now apply (H a (or_introl eq_refl)).
  - apply IH; [exact N2|]. intros x Hx. apply H. now right.
Qed.
Lemma nodup_mapped {A B} (f : A -> B) l : (forall a b, In a l -> In b l -> f a = f b -> a = b) -> NoDup l -> NoDup (map f l).
Proof.
  intros HI HN. induction l as [|a l IH]; [constructor|]. inversion HN as [|? ? N1 N2]; subst. cbn [map]. constructor.
  - intros H. apply in_map_iff in H as (b & E & Hb). apply N1. now rewrite (HI a b (or_introl eq_refl) (or_intror Hb) (eq_sym E)).
  - apply IH; [|exact N2]. intros b c Hb Hc. apply HI; now right.
Qed.
Lemma at_plain t cs fs : sound t -> at_dir t cs fs -> Forall plain cs /\ Forall plain fs /\ NoDup fs.
Proof.
  intros HS HA. induction HA as [files dirs|files dirs d t cs fs Hd HA IH]; inversion HS as [? ? HP HN HD]; subst.
  - split; [constructor|]. apply Forall_app in HP as [HP _]. split; [exact HP|]. clear -HN. induction files as [|f l IH]; [constructor|]. cbn [app] in HN.
    inversion HN as [|? ? N1 N2]; subst. constructor; [intros H; apply N1, in_or_app; now left|now apply IH].
  - apply sounds_all in HD. rewrite Forall_forall in HD. destruct (IH (HD _ Hd)) as (I1 & I2 & I3). split; [|now split]. constructor; [|exact I1].
    apply Forall_app in HP as [_ HP]. rewrite Forall_forall in HP. apply HP. now apply (in_map fst) in Hd.
Qed.
Section nodup.
  Variable g : list pystr -> list pystr.
  Hypothesis Hsub : forall fs f, In f (g fs) -> In f fs.
  Hypothesis Hnd : forall fs, NoDup fs -> NoDup (g fs).

  Lemma listed_plain t base p : sound t -> In p (listed g t base) -> exists cs f, Forall plain (cs ++ [f]) /\ p = path_join base (cs ++ [f]).
  Proof.
    intros HS Hp. apply listed_in in Hp as (cs & fs & f & HA & Hf & ->). exists cs, f. split; [|reflexivity]. destruct (at_plain t cs fs HS HA) as (P1 & P2 & _).
    apply Forall_app. split; [exact P1|]. constructor; [|constructor]. rewrite Forall_forall in P2. now apply P2, Hsub.
  Qed.
  Lemma listed_nodup t : sound t -> forall base, NoDup (listed g t base).
  Proof.
    induction t as [files dirs IH] using tree_all. intros HS base. rewrite listed_eq. destruct (at_plain _ _ _ HS (at_here files dirs)) as (_ & HPf & HNf).
    inversion HS as [? ? HP HN HD]; subst. apply Forall_app in HP as [_ HP]. apply NoDup_app_r in HN. apply nodup_both.
    - apply nodup_mapped; [|now apply Hnd]. rewrite Forall_forall in HPf. intros a b Ha Hb E. apply (join_inj base [a] [b]) in E; [congruence| | |discriminate|discriminate];
        (constructor; [now apply HPf, Hsub|constructor]).
    - clear HPf HNf HS. induction dirs as [|[d t] ds IHd]; [constructor|]. inversion HD as [|? ? ? HD1 HD2]; subst. inversion HP as [|? ? HP1 HP2]; subst.
      inversion HN as [|? ? HN1 HN2]; subst. inversion IH as [|? ? I1 I2]; subst. cbn [fst snd] in *. cbn [flat_map fst snd]. apply nodup_both; [now apply I1|now apply IHd|].
      intros p Hp Hq. apply listed_plain in Hp as (cs & f & Pp & ->); [|exact HD1]. apply in_flat_map in Hq as ([e u] & He & Hq). cbn [fst snd] in Hq.
      apply sounds_all in HD2. rewrite Forall_forall in HD2, HP2. apply listed_plain in Hq as (cs' & f' & Pq & E); [|now apply (HD2 _ He)].
      apply (in_map fst) in He. cbn [fst] in He. apply (join_inj base (d :: cs ++ [f]) (e :: cs' ++ [f'])) in E; [|now constructor|constructor; [now apply HP2|exact Pq]|discriminate|discriminate].
      injection E as <- _. now apply HN1.
    - intros p Hp Hq. apply in_map_iff in Hp as (f & <- & Hf). apply in_flat_map in Hq as ([e u] & He & Hq). cbn [fst snd] in Hq.
      apply sounds_all in HD. rewrite Forall_forall in HD, HP, HPf. apply listed_plain in Hq as (cs' & f' & Pq & E); [|now apply (HD _ He)].
      apply (in_map fst) in He. cbn [fst] in He. apply (join_inj base [f] (e :: cs' ++ [f'])) in E; [|constructor; [now apply HPf, Hsub|constructor]|constructor; [now apply HP|exact Pq]|discriminate|discriminate].
      injection E as _ E. destruct cs'; discriminate E.
  Qed.
End nodup.

Lemma remove_gone p l : NoDup l -> NoDup (remove_path p l) /\ forall q, In q (remove_path p l) <-> In q l /\ q <> p.
Proof.
  induction l as [|a l IH]; intros HN; [split; [constructor|]; intros q; split; [easy|now intros [H _]]|]. inversion HN as [|? ? N1 N2]; subst. cbn [remove_path].
  destruct (streq p a) eqn:E; rewrite ?E; [apply streq_spec in E; subst a|].
  - split; [exact N2|]. intros q. split; [intros H; split; [now right|intros ->; contradiction]|]. intros [[<-|H] N]; [contradiction|exact H].
  - destruct (IH N2) as [I1 I2]. split.
    + constructor; [|exact I1]. intros H. apply I2 in H as [H _]. contradiction.
    + assert (a <> p) by (intros ->; rewrite (proj2 (streq_spec p p) eq_refl) in E; discriminate). intros q. cbn [In]. rewrite I2. split; [intros [<-|[H1 H2]]; auto|]. intros [[<-|H1] H2]; auto.
Qed.
Lemma removes_gone ps : forall l, NoDup l -> NoDup (fold_left (fun paths p => remove_path p paths) ps l) /\
  forall q, In q (fold_left (fun paths p => remove_path p paths) ps l) <-> In q l /\ ~ In q ps.
Proof.
  induction ps as [|p ps IH]; intros l HN; cbn [fold_left]; [split; [exact HN|]; intros q; split; [intros H; split; [exact H|easy]|now intros [H _]]|].
  destruct (remove_gone p l HN) as [R1 R2]. destruct (IH _ R1) as [I1 I2]. split; [exact I1|]. intros q. rewrite I2, R2. cbn [In].
  split; [intros [[H1 H2] H3]; split; [exact H1|]; intros [->|H]; [now apply H2|now apply H3]|]. intros [H1 H2]. split; [split; [exact H1|intros ->; apply H2; now left]|]. intros H. apply H2. now right.
Qed.
Lemma chosen_sub name part fs f : In f (chosen name part fs) -> In f fs.
Proof.
  unfold chosen. destruct (existsb (streq name) fs) eqn:E.
  - intros [<-|[]]. apply existsb_exists in E as (x & Hx & E). apply streq_spec in E. now subst x.
  - destruct part; [|easy]. intros H. now apply filter_In in H as [H _].
Qed.
Lemma chosen_nodup name part fs : NoDup fs -> NoDup (chosen name part fs).
Proof. intros H. unfold chosen. destruct (existsb _ _); [repeat constructor; easy|]. destruct part; [now apply NoDup_filter|constructor]. Qed.
Lemma paths_eq base t name part ignore : get_filepaths base (Some t) name part ignore = fold_left (fun paths p => remove_path p paths) ignore (listed (chosen name part) t base).
Proof. unfold get_filepaths, listed. f_equal. apply flat_map_ext. intros d. apply found_eq. Qed.

Theorem paths_once base t name part ignore : sound t -> NoDup (get_filepaths base (Some t) name part ignore).
Proof. intros HS. rewrite paths_eq. apply removes_gone, listed_nodup; [apply chosen_sub|apply chosen_nodup|exact HS]. Qed.
Lemma paths_in base t name part ignore p : sound t -> In p (get_filepaths base (Some t) name part ignore) <->
  (exists cs fs f, at_dir t cs fs /\ In f (chosen name part fs) /\ p = path_join base (cs ++ [f])) /\ ~ In p ignore.
Proof.
  intros HS. rewrite paths_eq. rewrite (proj2 (removes_gone ignore _ (listed_nodup _ (chosen_sub name part) (chosen_nodup name part) t HS base))). now rewrite listed_in.
Qed.
Lemma exists_name name fs : existsb (streq name) fs = true <-> In name fs.
Proof.
  rewrite existsb_exists. split; [intros (x & Hx & E); apply streq_spec in E; now subst x|]. intros H. exists name. split; [exact H|now apply streq_spec].
Qed.
Theorem paths_exact base t name ignore p : sound t -> In p (get_filepaths base (Some t) name false ignore) <->
  (exists cs, has_file t cs name /\ p = path_join base (cs ++ [name])) /\ ~ In p ignore.
Proof.
  intros HS. rewrite paths_in by exact HS. apply and_iff_compat_r. unfold chosen. split.
  - intros (cs & fs & f & HA & Hf & ->). destruct (existsb (streq name) fs) eqn:E; [|easy]. destruct Hf as [<-|[]]. apply exists_name in E. exists cs. split; [|reflexivity]. apply at_files. now exists fs.
  - intros (cs & HF & ->). apply at_files in HF as (fs & HA & Hf). exists cs, fs, name. split; [exact HA|]. split; [|reflexivity]. apply exists_name in Hf. rewrite Hf. now left.
Qed.
Theorem paths_part base t name ignore p : sound t -> In p (get_filepaths base (Some t) name true ignore) <->
  (exists cs f, has_file t cs f /\ (exists s s', f = s ++ name ++ s') /\ (f = name \/ ~ has_file t cs name) /\ p = path_join base (cs ++ [f])) /\ ~ In p ignore.
Proof.
  intros HS. rewrite paths_in by exact HS. apply and_iff_compat_r. unfold chosen. split.
  - intros (cs & fs & f & HA & Hf & ->). exists cs, f. destruct (existsb (streq name) fs) eqn:E.
    + destruct Hf as [<-|[]]. apply exists_name in E. split; [apply at_files; now exists fs|]. split; [exists [], []; cbn; now rewrite app_nil_r|]. split; [now left|reflexivity].
    + apply filter_In in Hf as [Hf HC]. split; [apply at_files; now exists fs|]. split; [now apply contains_iff|]. split; [|reflexivity]. right. intros HF.
      apply at_files in HF as (fs' & HB & Hn). rewrite (at_one t cs fs' fs HS HB HA) in Hn. apply exists_name in Hn. congruence.
  - intros (cs & f & HF & HC & HO & ->). apply at_files in HF as (fs & HA & Hf). exists cs, fs, f. split; [exact HA|]. split; [|reflexivity]. destruct (existsb (streq name) fs) eqn:E.
    + destruct HO as [->|HO]; [now left|]. destruct HO. apply at_files. exists fs. split; [exact HA|now apply exists_name].
    + apply filter_In. split; [exact Hf|now apply contains_iff].
Qed.
Theorem paths_none base name part ignore : get_filepaths base None name part ignore = [].
Proof. unfold get_filepaths. cbn [flat_map]. now induction ignore. Qed.

(** an exact name hides the others in its directory *)
Theorem hidden base cs name f t p : sound t -> has_file t cs name -> has_file t cs f -> f <> name -> p = path_join base (cs ++ [f]) -> ~ In p (get_filepaths base (Some t) name true []).
Proof.
  intros HS HN HF Nf -> H. apply paths_part in H as [(cs' & f' & HF' & _ & HO & E) _]; [|exact HS]. destruct (files_plain t cs f HS HF) as [P1 P2], (files_plain t cs' f' HS HF') as [P3 P4].
  apply join_inj in E; [|apply Forall_app; split; [assumption|now constructor]|apply Forall_app; split; [assumption|now constructor]|now destruct cs|now destruct cs'].
  apply app_inj_tail in E as [<- <-]. destruct HO as [->|HO]; contradiction.
Qed.
Theorem hidden_ex : let t := Tree [lit "log.txt"; lit "log.txt.gz"] [(lit "b", Tree [lit "log.txt.gz"] [])] in
  get_filepaths (lit "a") (Some t) (lit "log.txt") true [] = [lit "a/log.txt"; lit "a/b/log.txt.gz"].
Proof. vm_compute. reflexivity. Qed.
(** paths to ignore are compared as texts *)
Theorem same_text : get_filepaths (lit "a/") (Some (Tree [lit "f"] [])) (lit "f") false [lit "a//f"] = [lit "a/f"].
Proof. vm_compute. reflexivity. Qed.
