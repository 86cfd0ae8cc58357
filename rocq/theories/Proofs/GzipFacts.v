(** Compressed files. *)
From Verif Require Import Proofs.StrFacts Proofs.PathFacts Proofs.DirsFacts Spec.GzipSpec.
Open Scope Z_scope.

Lemma gz_ext p : named p -> splitext (p ++ lit ".gz") = (p, lit ".gz").
Proof.
  intros (d & n & c & -> & HD & Hn & Hc & Nc).
  assert (E : path_ext ((d ++ n) ++ lit ".gz") = lit ".gz").
  { unfold path_ext. rewrite <- app_assoc.
    assert (HS : ~ In slash (n ++ lit ".gz")) by (intros H; apply in_app_or in H as [H|H]; [now apply Hn|cbn in H; intuition discriminate]).
    assert (EC : snd (cut_last slash (d ++ n ++ lit ".gz")) = n ++ lit ".gz").
    { destruct HD as [->|[d' ->]]; [cbn [app]; now rewrite cut_last_none|]. rewrite <- app_assoc. cbn [app]. now rewrite cut_last_app. }
    rewrite EC. change (lit ".gz") with (dot :: lit "gz"). rewrite cut_last_app by (cbn; intuition discriminate).
    destruct (n ++ [dot]) as [|x l] eqn:En; [destruct n; discriminate En|]. rewrite <- En.
    replace (forallb (Z.eqb dot) (n ++ [dot])) with false; [reflexivity|]. symmetry. apply not_true_iff_false. intros H.
    rewrite forallb_forall in H. specialize (H c (in_or_app _ _ _ (or_introl Hc))). apply Z.eqb_eq in H. congruence. }
  unfold splitext. rewrite E. f_equal. rewrite app_length. replace (length (d ++ n) + length (lit ".gz") - length (lit ".gz"))%nat with (length (d ++ n)) by lia.
  now rewrite firstn_app, Nat.sub_diag, firstn_all, app_nil_r.
Qed.
Lemma put_same fs p b : put fs p b p = b.
Proof. unfold put. now rewrite (proj2 (streq_spec p p) eq_refl). Qed.
Lemma put_other fs p b q : q <> p -> put fs p b q = fs q.
Proof. intros N. unfold put. destruct (streq p q) eqn:E; [apply streq_spec in E; congruence|reflexivity]. Qed.
Lemma lines_whole b : concat (byte_lines b) = b.
Proof.
  induction b as [|c b IH]; [reflexivity|]. cbn [byte_lines]. destruct (c =? 10); [cbn [concat app]; now rewrite IH|].
  destruct (byte_lines b) as [|l ls]; cbn [concat app] in *; now rewrite IH.
Qed.
Lemma gz_longer p : p ++ lit ".gz" <> p.
Proof. intros E. apply (f_equal (@length _)) in E. rewrite app_length in E. cbn in E. lia. Qed.
Lemma ext_longer p : snd (splitext p) = lit ".gz" -> fst (splitext p) <> p.
Proof. intros H E. pose proof (splitext_app p) as EA. rewrite H, E in EA. now apply gz_longer in EA. Qed.

Section facts.
  Variable gz : list Z -> list Z.
  Variable gunz : list Z -> list Z * bool.
  Variable dec : list Z -> option pystr.
  Variable enc : pystr -> option (list Z).
  Notation unzip := (unzip gunz dec enc).
  Notation zipfile := (zipfile gz).

  Lemma copy_all : lossless dec enc -> forall ls out, Forall (fun l => dec l <> None) ls -> copy_lines dec enc out ls = (out ++ concat ls, Ok tt).
  Proof.
    intros HL. induction ls as [|l ls IH]; intros out HF; cbn [copy_lines concat]; [now rewrite app_nil_r|]. inversion HF as [|? ? H1 H2]; subst.
    destruct (dec l) as [s|] eqn:E; [|contradiction]. rewrite (HL l s E), IH by exact H2. now rewrite <- app_assoc.
  Qed.
  Lemma copy_done : lossless dec enc -> forall ls out out', copy_lines dec enc out ls = (out', Ok tt) -> out' = out ++ concat ls.
  Proof.
    intros HL. induction ls as [|l ls IH]; intros out out' E; cbn [copy_lines concat] in *; [injection E as <-; now rewrite app_nil_r|].
    destruct (dec l) as [s|] eqn:ED; [|discriminate E]. rewrite (HL l s ED) in E. rewrite (IH _ _ E). now rewrite <- app_assoc.
  Qed.
  Theorem zip_does fs p cleanup b : fs p = Some b -> exists fs1, zipfile fs p cleanup = (fs1, Ok (p ++ lit ".gz")) /\ fs1 (p ++ lit ".gz") = Some (gz b) /\
    fs1 p = (if cleanup then None else Some b) /\ (forall q, q <> p -> q <> p ++ lit ".gz" -> fs1 q = fs q).
  Proof.
    intros Hb. unfold Gzip.zipfile. rewrite Hb. eexists. split; [reflexivity|]. unfold file_there. rewrite put_same. pose proof (gz_longer p) as NG. destruct cleanup; cbn [andb].
    - rewrite put_same, !(put_other _ _ _ (p ++ _)) by exact NG. rewrite put_same. split; [reflexivity|]. split; [reflexivity|]. intros q H1 H2. now rewrite !put_other.
    - rewrite put_same, put_other by congruence. split; [reflexivity|]. split; [exact Hb|]. intros q H1 H2. now rewrite put_other.
  Qed.
  Theorem unzip_does fs p cleanup packed data : named p -> lossless dec enc -> fs p = None -> fs (p ++ lit ".gz") = Some packed -> gunz packed = (data, true) -> readable dec data ->
    exists fs1, unzip fs (p ++ lit ".gz") cleanup = (fs1, Ok p) /\ fs1 p = Some data /\ fs1 (p ++ lit ".gz") = (if cleanup then None else Some packed) /\
      (forall q, q <> p -> q <> p ++ lit ".gz" -> fs1 q = fs q).
  Proof.
    intros HN HL Hp Hz Hg Hr. unfold Gzip.unzip. rewrite gz_ext by exact HN. rewrite (proj2 (streq_spec (lit ".gz") _) eq_refl). cbn [negb].
    rewrite Hp, Hz, Hg. rewrite (copy_all HL) by exact Hr. cbn [app]. rewrite lines_whole. eexists. split; [reflexivity|]. unfold file_there. rewrite put_same.
    pose proof (gz_longer p) as NG. destruct cleanup; cbn [andb].
    - rewrite put_same, put_other by congruence. rewrite put_same. split; [reflexivity|]. split; [reflexivity|]. intros q H1 H2. now rewrite !put_other.
    - rewrite put_same, put_other by congruence. split; [reflexivity|]. split; [exact Hz|]. intros q H1 H2. now rewrite put_other.
  Qed.
  Theorem round fs p b : named p -> lossless dec enc -> gunz (gz b) = (b, true) -> readable dec b -> fs p = Some b ->
    exists fs1 fs2, zipfile fs p true = (fs1, Ok (p ++ lit ".gz")) /\ unzip fs1 (p ++ lit ".gz") true = (fs2, Ok p) /\
      fs2 (p ++ lit ".gz") = None /\ forall q, q <> p ++ lit ".gz" -> fs2 q = fs q.
  Proof.
    intros HN HL Hg Hr Hb. destruct (zip_does fs p true b Hb) as (fs1 & E1 & Z1 & P1 & O1). cbn iota in P1.
    destruct (unzip_does fs1 p true (gz b) b HN HL P1 Z1 Hg Hr) as (fs2 & E2 & P2 & Z2 & O2). exists fs1, fs2. split; [exact E1|]. split; [exact E2|]. split; [exact Z2|].
    intros q Hq. destruct (streq q p) eqn:E; [apply streq_spec in E; subst q; congruence|]. assert (q <> p) by (intros ->; rewrite (proj2 (streq_spec p p) eq_refl) in E; discriminate).
    rewrite O2, O1; auto.
  Qed.
  (** nothing is lost *)
  Theorem safe_unzip fs f cleanup fs' r q : lossless dec enc -> unzip fs f cleanup = (fs', r) -> fs' q <> fs q ->
    (q = fst (splitext f) /\ fs q = None) \/
    (q = f /\ r = Ok (fst (splitext f)) /\ cleanup = true /\ exists packed data, fs f = Some packed /\ gunz packed = (data, true) /\ fs' (fst (splitext f)) = Some data).
  Proof.
    intros HL E Hq. unfold Gzip.unzip in E. destruct (splitext f) as [uz ext] eqn:ES. cbn [fst]. destruct (negb (streq ext (lit ".gz"))) eqn:EX; [injection E as <- <-; contradiction|].
    apply negb_false_iff, streq_spec in EX. assert (NU : uz <> f) by (pose proof (ext_longer f) as H; rewrite ES in H; now apply H).
    destruct (fs uz) eqn:EU; [injection E as <- <-; contradiction|]. destruct (fs f) as [packed|] eqn:EF; [|injection E as <- <-; contradiction].
    destruct (gunz packed) as [data whole] eqn:EG. destruct (copy_lines dec enc [] (byte_lines data)) as [out r0] eqn:EC.
    assert (HP : forall v, put fs uz v q <> fs q -> q = uz /\ fs q = None).
    { intros v H. unfold put in H. destruct (streq uz q) eqn:ESq; [apply streq_spec in ESq; subst q; now split|contradiction]. }
    destruct r0 as [[]|e]; [|injection E as <- <-; left; now apply HP in Hq]. destruct whole; [|injection E as <- <-; left; now apply HP in Hq].
    unfold file_there in E. rewrite put_same in E. destruct cleanup; cbn [andb] in E; injection E as <- <-; [|left; now apply HP in Hq].
    destruct (streq f q) eqn:Eq; [|left; unfold put at 1 in Hq; rewrite Eq in Hq; now apply HP in Hq]. apply streq_spec in Eq. subst q. right.
    split; [reflexivity|]. split; [reflexivity|]. split; [reflexivity|]. exists packed, data. split; [reflexivity|]. split; [exact EG|].
    rewrite put_other by congruence. rewrite put_same. apply copy_done in EC; [|exact HL]. cbn [app] in EC. now rewrite EC, lines_whole.
  Qed.
  (** what is there is taken, whatever it is *)
  Theorem stale fs p cleanup v : named p -> fs p = Some v -> unzip fs (p ++ lit ".gz") cleanup = (fs, Ok p).
  Proof. intros HN Hp. unfold Gzip.unzip. rewrite gz_ext by exact HN. rewrite (proj2 (streq_spec (lit ".gz") _) eq_refl). cbn [negb]. now rewrite Hp. Qed.
  Theorem second fs p cleanup cleanup' fs' e packed : named p -> fs (p ++ lit ".gz") = Some packed -> unzip fs (p ++ lit ".gz") cleanup = (fs', Err e) ->
    unzip fs' (p ++ lit ".gz") cleanup' = (fs', Ok p).
  Proof.
    intros HN Hz E. enough (exists v, fs' p = Some v) as [v Hv] by now apply stale with v. unfold Gzip.unzip in E. rewrite gz_ext in E by exact HN.
    rewrite (proj2 (streq_spec (lit ".gz") _) eq_refl) in E. cbn [negb] in E. destruct (fs p); [discriminate E|]. rewrite Hz in E. destruct (gunz packed) as [data whole].
    destruct (copy_lines dec enc [] (byte_lines data)) as [out [[]|e']]; [destruct whole; [discriminate E|]|]; injection E as <- <-; exists out; apply put_same.
  Qed.
  Theorem exists_there fs p check_zip unzip_file fs' q : file_exists gunz dec enc fs p check_zip unzip_file = (fs', Ok (Some q)) -> (check_zip && unzip_file = true -> named p) -> file_there fs' q = true.
  Proof.
    intros E HN. unfold Gzip.file_exists in E. destruct p as [|a p]; [discriminate E|]. set (f := a :: p) in *. destruct (file_there fs f) eqn:E1; [injection E as <- <-; exact E1|].
    destruct (streq _ _ && file_there fs (fst (splitext f))) eqn:E2; [injection E as <- <-; apply andb_true_iff in E2; apply E2|].
    destruct check_zip; [|discriminate E]. destruct (file_there fs (f ++ lit ".gz")) eqn:E3; [|discriminate E]. destruct unzip_file; [|injection E as <- <-; exact E3].
    destruct (unzip fs (f ++ lit ".gz") false) as [fs1 [r|]] eqn:EU; [|discriminate E]. cbn [bind] in E. injection E as <- <-. specialize (HN eq_refl).
    unfold Gzip.unzip in EU. rewrite gz_ext in EU by exact HN. rewrite (proj2 (streq_spec (lit ".gz") _) eq_refl) in EU. cbn [negb] in EU.
    destruct (fs f) eqn:Ef; [injection EU as <- <-; unfold file_there; now rewrite Ef|]. unfold file_there in E3. destruct (fs (f ++ lit ".gz")) as [packed|]; [|discriminate E3].
    destruct (gunz packed) as [data whole]. destruct (copy_lines dec enc [] (byte_lines data)) as [out [[]|e']]; [destruct whole|]; try discriminate EU.
    cbn [andb] in EU. injection EU as <- <-. unfold file_there. now rewrite put_same.
  Qed.
  Theorem exists_not fs p unzip_file : named p -> fs p = None -> fs (p ++ lit ".gz") = None -> (snd (splitext p) = lit ".gz" -> fs (fst (splitext p)) = None) ->
    file_exists gunz dec enc fs p true unzip_file = (fs, Ok None).
  Proof.
    intros HN H1 H2 H3. unfold Gzip.file_exists. destruct p as [|a p]; [reflexivity|]. set (f := a :: p) in *. unfold file_there. rewrite H1, H2.
    destruct (streq (snd (splitext f)) (lit ".gz")) eqn:E; cbn [andb]; [|reflexivity]. apply streq_spec in E. now rewrite (H3 E).
  Qed.
End facts.

(** An example: no compression; bytes over 127 cannot be read. *)
Definition ascii_dec (l : list Z) : option pystr := if forallb (fun c => c <? 128) l then Some l else None.
Lemma ascii_lossless : lossless ascii_dec Some.
Proof. intros l s H. unfold ascii_dec in H. destruct (forallb _ l); [now injection H as <-|discriminate H]. Qed.
Theorem cut_off : let p := lit "log.txt" in let fs := put (fun _ => None) (p ++ lit ".gz") (Some (lit "a" ++ [10; 200; 10] ++ lit "b")) in
  snd (unzip (fun b => (b, true)) ascii_dec Some fs (p ++ lit ".gz") false) = Err ValueError /\
  let fs1 := fst (unzip (fun b => (b, true)) ascii_dec Some fs (p ++ lit ".gz") false) in
  unzip (fun b => (b, true)) ascii_dec Some fs1 (p ++ lit ".gz") false = (fs1, Ok p) /\ fs1 p = Some (lit "a" ++ [10]).
Proof. repeat split; vm_compute; reflexivity. Qed.
