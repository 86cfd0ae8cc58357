(** The parts of a path. *)
From Coq Require Import Sorted.
From Verif Require Import Proofs.StrFacts Proofs.PathFacts Proofs.StructuresRead Proofs.FileNamesFacts Proofs.UtilNamesFacts Spec.DirsSpec.
Open Scope Z_scope.

(** ** From the components *)
Definition slashed (k : nat) (cs : list pystr) : pystr := repeat slash k ++ join [slash] cs.
Lemma all_slash k : forallb (Z.eqb slash) (repeat slash k) = true.
Proof. induction k; [reflexivity|exact IHk]. Qed.
Lemma split_slashed k cs c : Forall (fun w => w <> [] /\ ~ In slash w) cs -> c <> [] -> ~ In slash c ->
  path_split (slashed k (cs ++ [c])) = (slashed k cs, c).
Proof.
  intros HF H1 H2. unfold path_split, slashed. destruct cs as [|x cs].
  - cbn [app join]. rewrite app_nil_r. destruct k as [|k]; [cbn [repeat app]; now rewrite cut_last_none|].
    assert (E : repeat slash (S k) ++ c = repeat slash k ++ slash :: c).
    { change (slash :: c) with ([slash] ++ c). rewrite app_assoc. f_equal. change [slash] with (repeat slash 1). rewrite <- repeat_app. f_equal. lia. }
    rewrite E, cut_last_app by exact H2.
    assert (E2 : repeat slash k ++ [slash] = repeat slash (S k)) by (change [slash] with (repeat slash 1); rewrite <- repeat_app; f_equal; lia).
    now rewrite E2, all_slash.
  - assert (Hne : x :: cs <> []) by discriminate. set (l := x :: cs) in *. clearbody l. clear x cs.
    rewrite join_app by (assumption || discriminate). cbn [join]. rewrite app_assoc. cbn [app].
    rewrite cut_last_app by exact H2.
    destruct (exists_last Hne) as (l0 & w & ->). apply Forall_app in HF as [_ HF]. inversion HF as [|? ? [W1 W2] _]; subst.
    destruct (exists_last W1) as (w0 & a & ->). assert (Na : a <> slash) by (intros ->; apply W2, in_or_app; right; now left).
    assert (E : exists s, repeat slash k ++ join [slash] (l0 ++ [w0 ++ [a]]) = s ++ [a]).
    { destruct l0 as [|y l0]; [exists (repeat slash k ++ w0); cbn [app join]; now rewrite app_assoc|].
      rewrite join_app by discriminate. cbn [join]. eexists. rewrite !app_assoc. reflexivity. }
    destruct E as [s E]. rewrite E. rewrite <- app_assoc. cbn [app]. rewrite rstrip_last by exact Na.
    replace (forallb (Z.eqb slash) (s ++ [a; slash])) with false; [reflexivity|].
    symmetry. apply not_true_iff_false. intros H. rewrite forallb_forall in H. specialize (H a). rewrite Z.eqb_eq in H.
    apply Na. symmetry. apply H, in_or_app. right. now left.
Qed.
Lemma tails_slashed k : forall cs fuel acc, Forall (fun w => w <> [] /\ ~ In slash w) cs -> (length cs < fuel)%nat ->
  tails fuel (slashed k cs) acc = Ok (cs ++ acc).
Proof.
  induction cs as [|c cs IH] using rev_ind; intros fuel acc HF Hf; (destruct fuel as [|n]; [lia|]); cbn [tails].
  - unfold slashed. cbn [join]. rewrite app_nil_r. unfold path_split.
    assert (E : cut_last slash (repeat slash k) = (repeat slash k, [])).
    { clear. induction k as [|k IH]; [reflexivity|]. cbn [repeat cut_last]. rewrite IH. destruct k; cbn [repeat]; reflexivity. }
    now rewrite E.
  - apply Forall_app in HF as [HF HC]. inversion HC as [|? ? [C1 C2] _]; subst. rewrite app_length in Hf. cbn [length] in Hf.
    rewrite split_slashed by assumption. destruct c as [|a c]; [contradiction|]. rewrite IH; [now rewrite <- app_assoc|exact HF|lia].
Qed.
Lemma slashed_length k cs : Forall (fun w => w <> [] /\ ~ In slash w) cs -> (length cs <= length (slashed k cs))%nat.
Proof.
  intros HF. unfold slashed. rewrite app_length. enough (length cs <= length (join [slash] cs))%nat by lia.
  induction HF as [|w cs [W _] _ IH]; [reflexivity|]. destruct cs as [|v cs]; [destruct w; [contradiction|cbn; lia]|].
  change (join [slash] (w :: v :: cs)) with (w ++ [slash] ++ join [slash] (v :: cs)). rewrite !app_length. cbn [length] in *. lia.
Qed.

(** ** normpath of a path without two dots *)
Lemma norm_pieces r : forall l acc, Forall (fun c => c <> [dot; dot]) l ->
  norm_comps r acc l = rev acc ++ filter (fun c => negb (streq c [] || streq c [dot])) l.
Proof.
  induction l as [|c l IH]; intros acc HF; cbn [norm_comps filter]; [now rewrite app_nil_r|]. inversion HF as [|? ? HC HF']; subst.
  destruct (streq c [] || streq c [dot]); cbn [negb]; [now apply IH|].
  destruct (streq c [dot; dot]) eqn:E; [apply streq_spec in E; contradiction|]. cbn [negb]. rewrite IH by exact HF'. cbn [rev]. now rewrite <- app_assoc.
Qed.
Lemma split_noslash : forall s w, In w (split slash s) -> ~ In slash w.
Proof.
  induction s as [|a s IH]; intros w; cbn [split]; [intros [<-|[]] []|]. destruct (Z.eqb_spec a slash) as [->|N].
  - intros [<-|H]; [intros []|now apply IH].
  - destruct (split slash s) as [|v vs]; [intros [<-|[]] [E|[]]; congruence|]. intros [<-|H].
    + intros [E|H]; [congruence|]. now apply (IH v (or_introl eq_refl)).
    + apply IH. now right.
Qed.
Lemma pieces_ok p : Forall (fun w => w <> [] /\ ~ In slash w) (pieces p).
Proof.
  apply Forall_forall. intros w Hw. apply filter_In in Hw as [H1 H2]. split; [|now apply split_noslash in H1]. intros ->. discriminate H2.
Qed.
Lemma norm_slashed p : Forall (fun c => c <> [dot; dot]) (pieces p) -> pieces p <> [] \/ (exists s, p = slash :: s) ->
  exists k, normpath p = slashed k (pieces p).
Proof.
  intros HD Hne.
  assert (HD' : Forall (fun c => c <> [dot; dot]) (split slash p)).
  { rewrite Forall_forall in HD |- *. intros c Hc E. subst c. apply (HD [dot; dot]); [|reflexivity]. apply filter_In. now split. }
  destruct p as [|a p]; [destruct Hne as [H|[s H]]; [now exfalso; apply H|discriminate H]|].
  unfold normpath.
  match goal with |- context [norm_comps (negb (Nat.eqb ?x 0)) [] _] => set (k := x) end.
  rewrite norm_pieces by exact HD'. cbn [rev app]. fold (pieces (a :: p)). exists k. fold (slashed k (pieces (a :: p))).
  destruct (slashed k (pieces (a :: p))) as [|b q] eqn:E; [|reflexivity]. exfalso. unfold slashed in E. apply app_eq_nil in E as [E1 E2].
  destruct Hne as [H|[s H]].
  - destruct (pieces (a :: p)) as [|w [|v ws]] eqn:EP; [now apply H| |].
    + cbn [join] in E2. subst w. pose proof (pieces_ok (a :: p)) as HO. rewrite EP in HO. inversion HO as [|? ? [HW _] _]. now apply HW.
    + cbn [join] in E2. apply app_eq_nil in E2 as [_ E2]. discriminate E2.
  - injection H as -> ->. unfold k in E1. rewrite Z.eqb_refl in E1.
    destruct s as [|b [|c s]]; [discriminate E1|destruct (b =? slash); discriminate E1|].
    destruct ((b =? slash) && negb (c =? slash)); discriminate E1.
Qed.
Lemma dirs_of p : Forall (fun c => c <> [dot; dot]) (pieces p) -> pieces p <> [] \/ (exists s, p = slash :: s) ->
  all_tails (normpath p) = Ok (pieces p).
Proof.
  intros HD Hne. destruct (norm_slashed p HD Hne) as [k ->]. unfold all_tails.
  rewrite tails_slashed; [now rewrite app_nil_r|apply pieces_ok|]. pose proof (slashed_length k (pieces p) (pieces_ok p)). lia.
Qed.
Theorem parts p : Forall (fun c => c <> [dot; dot]) (pieces p) -> pieces p <> [] -> get_all_dirs p None = Ok (Some (pieces p)).
Proof. intros HD Hne. unfold get_all_dirs. rewrite dirs_of by (assumption || now left). reflexivity. Qed.
Theorem parts_text r cs : Forall plain cs -> cs <> [] -> get_all_dirs (path_text r cs) None = Ok (Some cs).
Proof.
  intros HF Hne.
  assert (E : pieces (path_text r cs) = cs).
  { unfold pieces, path_text.
    assert (HS : split slash (join [slash] cs) = cs) by (apply split_join; [exact Hne|now apply plain_noslash]).
    assert (HG : filter (fun c => negb (streq c [] || streq c [dot])) cs = cs).
    { clear Hne HS. induction HF as [|c cs (P1 & P2 & P3 & P4) _ IH]; [reflexivity|]. cbn [filter].
      destruct (streq c []) eqn:E1; [apply streq_spec in E1; contradiction|]. destruct (streq c [dot]) eqn:E2; [apply streq_spec in E2; contradiction|].
      cbn [orb negb]. now rewrite IH. }
    destruct r; cbn [app]; [|now rewrite HS]. cbn [split]. rewrite Z.eqb_refl. cbn [filter streq orb negb]. now rewrite HS. }
  rewrite parts; [now rewrite E| |now rewrite E]. rewrite E. revert HF. apply Forall_impl. now intros c (_ & _ & _ & H).
Qed.

(** ** Below a directory *)
Lemma prefix_app sep r : is_prefix sep (sep ++ r) = true.
Proof. induction sep as [|a sep IH]; [reflexivity|]. cbn [app is_prefix]. now rewrite Z.eqb_refl. Qed.
Lemma prefix_spec sep s : is_prefix sep s = true <-> exists r, s = sep ++ r.
Proof.
  revert s. induction sep as [|a sep IH]; intros s; [split; [exists s; reflexivity|reflexivity]|]. destruct s as [|b s]; cbn [is_prefix].
  - split; [discriminate|intros [r H]; discriminate H].
  - rewrite andb_true_iff, Z.eqb_eq, IH. split; [intros [-> [r ->]]; now exists r|intros [r [= -> ->]]; split; [reflexivity|now exists r]].
Qed.
Lemma contains_iff m h : contains m h = true <-> exists s t, h = s ++ m ++ t.
Proof.
  induction h as [|a h IH]; cbn [contains].
  - rewrite orb_true_iff, prefix_spec. split.
    + intros [[r E]|H]; [now exists [], r|discriminate H].
    + intros (s & t & E). left. exists t. symmetry in E. apply app_eq_nil in E as [-> E]. now symmetry.
  - rewrite orb_true_iff, prefix_spec, IH. split.
    + intros [[r E]|(s & t & ->)]; [now exists [], r|now exists (a :: s), t].
    + intros ([|b s] & t & E); [left; now exists t|right]. injection E as -> E. now exists s, t.
Qed.
Lemma split_none sep : sep <> [] -> forall s word, (forall a b, s <> a ++ sep ++ b) -> split_sub sep 0 word s = [rev word ++ s].
Proof.
  intros Hne. induction s as [|c s IH]; intros word H; cbn [split_sub]; [now rewrite app_nil_r|].
  destruct (is_prefix sep (c :: s)) eqn:E; [apply prefix_spec in E as [r E]; exfalso; now apply (H [] r)|].
  rewrite IH; [cbn [rev]; now rewrite <- app_assoc|]. intros a b ->. now apply (H (c :: a) b).
Qed.
Lemma skip_word sep : forall w rest word, split_sub sep (length w) word (w ++ rest) = split_sub sep 0 word rest.
Proof. induction w as [|a w IH]; intros rest word; [reflexivity|]. cbn [length app split_sub]. apply IH. Qed.
Lemma split_once sep : sep <> [] -> forall pre post word, once sep pre (pre ++ sep ++ post) ->
  split_sub sep 0 word (pre ++ sep ++ post) = [rev word ++ pre; post].
Proof.
  intros Hne. induction pre as [|c pre IH]; intros post word HO.
  - cbn [app]. destruct sep as [|a sep]; [contradiction|]. cbn [app split_sub]. pose proof (prefix_app (a :: sep) post) as HP. cbn [app] in HP. rewrite HP.
    cbn [length]. replace (S (length sep) - 1)%nat with (length sep) by lia. rewrite skip_word, app_nil_r.
    rewrite split_none; [reflexivity|discriminate|]. intros x y ->.
    assert (E : [] ++ (a :: sep) ++ x ++ (a :: sep) ++ y = ((a :: sep) ++ x) ++ (a :: sep) ++ y) by (cbn [app]; now rewrite <- app_assoc).
    specialize (HO _ _ E). discriminate HO.
  - cbn [app split_sub]. destruct (is_prefix sep (c :: pre ++ sep ++ post)) eqn:E.
    + apply prefix_spec in E as [r E]. specialize (HO [] r E). discriminate HO.
    + rewrite IH; [cbn [rev]; now rewrite <- app_assoc|]. intros a b E2. specialize (HO (c :: a) b). cbn [app] in HO. rewrite E2 in HO.
      specialize (HO eq_refl). now injection HO.
Qed.
Theorem parts_below base pre rest b : b <> [] -> contains b (pre ++ base ++ slash :: rest) = true -> normpath b = base -> base <> [] ->
  once base pre (pre ++ base ++ slash :: rest) -> Forall (fun c => c <> [dot; dot]) (pieces rest) ->
  get_all_dirs (pre ++ base ++ slash :: rest) (Some b) = Ok (Some (pieces rest)).
Proof.
  intros Hb HC HN Hne HO HD. unfold get_all_dirs. destruct b as [|x b]; [contradiction|]. rewrite HC, HN. unfold split_by.
  rewrite split_once by assumption.
  assert (E : pieces (slash :: rest) = pieces rest) by (unfold pieces; cbn [split]; rewrite Z.eqb_refl; reflexivity).
  rewrite dirs_of; [now rewrite E|now rewrite E|right; now exists rest].
Qed.
Theorem parts_none p b : b <> [] -> (forall x y, p <> x ++ b ++ y) -> get_all_dirs p (Some b) = Ok None.
Proof.
  intros Hb H. unfold get_all_dirs. destruct b as [|x b]; [contradiction|]. destruct (contains (x :: b) p) eqn:E; [|reflexivity].
  apply contains_iff in E as (s & t & E). now destruct (H s t).
Qed.
(** of the directory itself the current directory is left *)
Theorem parts_self r cs : Forall plain cs -> cs <> [] -> get_all_dirs (path_text r cs) (Some (path_text r cs)) = Ok (Some [[dot]]).
Proof.
  intros HF Hne. assert (HN : path_text r cs <> []).
  { unfold path_text. destruct (join_first cs HF Hne) as (a & s & E & _). rewrite E. destruct r; discriminate. }
  unfold get_all_dirs. destruct (path_text r cs) as [|x p] eqn:E; [contradiction|]. rewrite <- E in *. clear E x p.
  rewrite (proj2 (contains_iff (path_text r cs) (path_text r cs))) by (exists [], []; cbn [app]; now rewrite app_nil_r).
  rewrite norm_path by assumption. unfold split_by. set (s := path_text r cs) in *.
  assert (HS : split_sub s 0 [] s = [[]; []]).
  { pose proof (split_once s HN [] [] []) as H. cbn [app rev] in H. rewrite app_nil_r in H. apply H. intros a b E.
    apply (f_equal (@length _)) in E. rewrite !app_length in E. destruct a; [reflexivity|cbn [length] in E; lia]. }
  rewrite HS. reflexivity.
Qed.

(** ** Extensions *)
Lemma ext_suffix p : exists h, p = h ++ path_ext p.
Proof.
  unfold path_ext. assert (HC : forall c s, s = fst (cut_last c s) ++ snd (cut_last c s)).
  { intros c. induction s as [|a s IH]; [reflexivity|]. cbn [cut_last]. destruct (cut_last c s) as [h t]. cbn [fst snd] in IH.
    destruct h as [|b h]; cbn [app] in IH.
    - destruct (a =? c); cbn [fst snd app]; now rewrite IH.
    - cbn [fst snd app]. now rewrite IH. }
  pose proof (HC slash p) as E1. set (name := snd (cut_last slash p)) in *.
  assert (HL : forall c s h t, cut_last c s = (h, t) -> h <> [] -> exists g, h = g ++ [c]).
  { clear. intros c. induction s as [|a s IH]; intros h t E Hh; cbn [cut_last] in E; [injection E as <- <-; contradiction|].
    destruct (cut_last c s) as [h' t'] eqn:E'. destruct h' as [|b h'].
    - destruct (Z.eqb_spec a c) as [->|]; injection E as <- <-; [now exists []|contradiction].
    - injection E as <- <-. destruct (IH _ _ eq_refl ltac:(discriminate)) as [g ->]. now exists (a :: g). }
  pose proof (HC dot name) as E2. destruct (cut_last dot name) as [h t] eqn:E. cbn [fst snd] in E2. destruct h as [|a h].
  - exists p. now rewrite app_nil_r.
  - destruct (forallb (Z.eqb dot) (a :: h)); [exists p; now rewrite app_nil_r|].
    destruct (HL _ _ _ _ E ltac:(discriminate)) as [g Eg]. exists (fst (cut_last slash p) ++ g). rewrite E1 at 1. rewrite E2, Eg. rewrite <- !app_assoc. reflexivity.
Qed.
Lemma splitext_app p : fst (splitext p) ++ snd (splitext p) = p.
Proof.
  unfold splitext. cbn [fst snd]. destruct (ext_suffix p) as [h E]. set (e := path_ext p) in *. clearbody e. subst p.
  rewrite app_length. replace (length h + length e - length e)%nat with (length h) by lia. now rewrite firstn_app, Nat.sub_diag, firstn_all, app_nil_r.
Qed.
Theorem ext_parts p : fst (split_ext p) ++ snd (split_ext p) = p.
Proof.
  unfold split_ext. pose proof (splitext_app p) as E. destruct (splitext p) as [fn ext]. cbn [fst snd] in E.
  destruct (streq ext (lit ".gz")) eqn:S; [|exact E]. apply streq_spec in S. subst ext.
  pose proof (splitext_app fn) as E2. destruct (splitext fn) as [f2 e2]. cbn [fst snd] in *. rewrite app_assoc, E2. exact E.
Qed.
Lemma ext_of d n e : (exists a s, n = a :: s /\ a <> dot) -> ~ In slash n -> ~ In slash e -> ~ In dot e ->
  (d = [] \/ exists d', d = d' ++ [slash]) -> splitext (d ++ n ++ dot :: e) = (d ++ n, dot :: e).
Proof.
  intros (a & s & -> & Na) Hn He Hd HD.
  assert (E : path_ext (d ++ (a :: s) ++ dot :: e) = dot :: e).
  { unfold path_ext.
    assert (HS : ~ In slash ((a :: s) ++ dot :: e)).
    { intros H. apply in_app_or in H as [H|[H|H]]; [now apply Hn|discriminate H|now apply He]. }
    assert (EC : snd (cut_last slash (d ++ (a :: s) ++ dot :: e)) = (a :: s) ++ dot :: e).
    { destruct HD as [->|[d' ->]]; [cbn [app]; change (a :: s ++ dot :: e) with ((a :: s) ++ dot :: e); now rewrite cut_last_none|].
      rewrite <- app_assoc. cbn [app]. change (a :: s ++ dot :: e) with ((a :: s) ++ dot :: e). now rewrite cut_last_app. }
    rewrite EC, cut_last_app by exact Hd. cbn [app]. cbn [forallb]. destruct (Z.eqb_spec dot a); [congruence|]. reflexivity. }
  unfold splitext. rewrite E. f_equal. rewrite app_assoc. rewrite app_length. 
  replace (length (d ++ a :: s) + length (dot :: e) - length (dot :: e))%nat with (length (d ++ a :: s)) by lia.
  now rewrite firstn_app, Nat.sub_diag, firstn_all, app_nil_r.
Qed.
Theorem ext_gz d n e : (exists a s, n = a :: s /\ a <> dot) -> ~ In slash n -> ~ In slash e -> ~ In dot e -> e <> lit "gz" ->
  (d = [] \/ exists d', d = d' ++ [slash]) ->
  split_ext (d ++ n ++ dot :: e) = (d ++ n, dot :: e) /\ split_ext ((d ++ n ++ dot :: e) ++ lit ".gz") = (d ++ n, dot :: e ++ lit ".gz").
Proof.
  intros Hn Hs He Hd Hz HD. unfold split_ext. split.
  - rewrite ext_of by assumption. destruct (streq (dot :: e) (lit ".gz")) eqn:E; [|reflexivity]. apply streq_spec in E. exfalso. apply Hz. now injection E.
  - replace ((d ++ n ++ dot :: e) ++ lit ".gz") with (d ++ (n ++ dot :: e) ++ dot :: lit "gz") by (now rewrite <- !app_assoc).
    rewrite ext_of.
    + rewrite (proj2 (streq_spec (dot :: lit "gz") (lit ".gz")) eq_refl). rewrite ext_of by assumption. reflexivity.
    + destruct Hn as (a & s & -> & Na). exists a, (s ++ dot :: e). now split.
    + intros H. apply in_app_or in H as [H|[H|H]]; [now apply Hs|discriminate H|now apply He].
    + cbn. intros [H|[H|[]]]; discriminate H.
    + cbn. intros [H|[H|[]]]; discriminate H.
    + exact HD.
Qed.

Theorem parts_others :
  get_all_dirs (lit "/data/tmp2/x") (Some (lit "tmp")) = Ok (Some (map lit ["2"; "x"]%string)) /\
  get_all_dirs (lit "/tmp/a/tmp/b") (Some (lit "tmp")) = Err ValueError /\
  get_all_dirs (lit "/tmp//a/b") (Some (lit "/tmp//a")) = Err ValueError /\
  get_all_dirs [] None = Ok (Some [[dot]]).
Proof. repeat apply conj; vm_compute; reflexivity. Qed.
