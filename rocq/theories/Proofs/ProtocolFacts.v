(** Protocol strings: when parsing inverts formatting. *)
From Verif Require Import Model.Protocol Proofs.StrFacts.
Open Scope Z_scope.

Lemma str_of_int_no n : ~ In underscore (str_of_int n).
Proof.
  unfold str_of_int. destruct (Z.ltb_spec n 0).
  - destruct (str_of_nat_spec (- n)) as (_ & H2 & _); [lia|]. intros [E|Hin]; [discriminate E|].
    revert Hin. apply digits_no; [exact H2|unfold underscore; lia].
  - destruct (str_of_nat_spec n) as (_ & H2 & _); [lia|]. apply digits_no; [exact H2|unfold underscore; lia].
Qed.

Lemma split_dash_nat n : 0 <= n -> split dash (str_of_nat n) = [str_of_nat n].
Proof.
  intros H. apply split_none. destruct (str_of_nat_spec n) as (_ & H2 & _); [lia|].
  apply digits_no; [exact H2|unfold dash; lia].
Qed.

Lemma str_of_nat_pos n : 0 <= n -> str_of_int n = str_of_nat n.
Proof. intros H. unfold str_of_int. destruct (Z.ltb_spec n 0); [lia|reflexivity]. Qed.

Lemma format_underscore name steps : In underscore (format_protocol (name, steps)) <-> In underscore name.
Proof.
  unfold format_protocol. destruct (steps =? 0); [tauto|]. pose proof (str_of_int_no steps).
  destruct name as [|a name]; [cbn; tauto|]. rewrite !in_app_iff. cbn [In]. split; [|tauto].
  intros [Hn|[[E|[]]|Hn]]; [exact Hn|discriminate E|tauto].
Qed.

Section protocol.
  Variable uni : pystr -> option Z.
  Notation int := (int_of_str uni).

  Definition good_part (p : pystr * Z) : Prop :=
    ~ In underscore (fst p) /\ 0 <= snd p /\
    (snd p = 0 -> fst p = [] \/ (last (split dash (fst p)) [] <> [] /\ int (last (split dash (fst p)) []) = None)).

  Lemma part_of_digits pre n : 0 <= n -> Forall (fun w => ~ In dash w) pre ->
    forall s, split dash s = pre ++ [str_of_nat n] ->
    protocol_part uni s = (join [dash] pre, n).
  Proof.
    intros Hn _ s Hs. unfold protocol_part. rewrite Hs, last_app1, removelast_app1.
    destruct (str_of_nat_spec n Hn) as (Hne & _ & _).
    pose proof (int_str uni n) as HI. rewrite str_of_nat_pos in HI by exact Hn.
    destruct (str_of_nat n) as [|a w]; [contradiction|]. now rewrite HI.
  Qed.

  Lemma part_pos name n : 0 < n -> protocol_part uni (format_protocol (name, n)) = (name, n).
  Proof.
    intros Hn. cbn [format_protocol]. destruct (Z.eqb_spec n 0); [lia|].
    rewrite str_of_nat_pos by lia. destruct name as [|a name].
    - apply (part_of_digits []); [lia|constructor|]. now rewrite split_dash_nat by lia.
    - rewrite (part_of_digits (split dash (a :: name)) n); [now rewrite join_split|lia|apply split_free|].
      cbn [app]. change (a :: name ++ dash :: str_of_nat n) with ((a :: name) ++ dash :: str_of_nat n).
      rewrite split_app. now rewrite split_dash_nat by lia.
  Qed.

  Lemma part_neg name n : n < 0 -> snd (protocol_part uni (format_protocol (name, n))) = - n.
  Proof.
    intros Hn. cbn [format_protocol]. destruct (Z.eqb_spec n 0); [lia|].
    unfold str_of_int. destruct (Z.ltb_spec n 0); [|lia].
    assert (HD : split dash (dash :: str_of_nat (- n)) = [[]] ++ [str_of_nat (- n)]).
    { change (dash :: str_of_nat (- n)) with ([] ++ dash :: str_of_nat (- n)). rewrite split_app.
      now rewrite split_dash_nat by lia. }
    destruct name as [|a name].
    - rewrite (part_of_digits [[]] (- n)); [reflexivity|lia|repeat constructor; intros []|exact HD].
    - rewrite (part_of_digits (split dash (a :: name) ++ [[]]) (- n)); [reflexivity|lia| |].
      + apply Forall_app. split; [apply split_free|repeat constructor; intros []].
      + change ([dash] ++ dash :: str_of_nat (- n)) with (dash :: dash :: str_of_nat (- n)).
        rewrite split_app, HD. now rewrite app_assoc.
  Qed.

  Lemma join_removelast l : l <> [] -> Forall (fun w => ~ In dash w) l ->
    join [dash] (removelast l) = join [dash] l -> l = [[]].
  Proof.
    intros Hne _ E. destruct (exists_last Hne) as (pre & w & ->). rewrite removelast_app1 in E.
    destruct pre as [|p pre].
    - cbn in E. now subst.
    - rewrite join_app in E by discriminate. apply (f_equal (@length _)) in E.
      rewrite !app_length in E. cbn in E. lia.
  Qed.

  Lemma part_zero name : protocol_part uni name = (name, 0) <->
    name = [] \/ (last (split dash name) [] <> [] /\ int (last (split dash name) []) = None).
  Proof.
    assert (HJ : forall k, (join [dash] (removelast (split dash name)), k) = (name, 0) -> name = []).
    { intros k E. injection E as E _. rewrite <- (join_split dash name) in E at 2.
      apply join_removelast in E; [|apply split_ne|apply split_free].
      rewrite <- (join_split dash name), E. reflexivity. }
    unfold protocol_part. destruct (last (split dash name) []) as [|a w] eqn:EL.
    - split; [left; eapply HJ; eassumption|]. intros [->|[N _]]; [reflexivity|now destruct N].
    - destruct (int (a :: w)) as [num|] eqn:EI.
      + split; [left; eapply HJ; eassumption|]. intros [->|[_ N]]; [discriminate EL|discriminate N].
      + rewrite join_split. split; [|reflexivity]. intros _. right. split; [discriminate|reflexivity].
  Qed.

  Lemma part_round name n : protocol_part uni (format_protocol (name, n)) = (name, n) <->
    0 <= n /\ (n = 0 -> name = [] \/ (last (split dash name) [] <> [] /\ int (last (split dash name) []) = None)).
  Proof.
    destruct (Z.lt_trichotomy n 0) as [H|[->|H]].
    - split; [|lia]. intros E. apply (f_equal snd) in E. rewrite part_neg in E by exact H. cbn in E. lia.
    - cbn [format_protocol Z.eqb]. rewrite part_zero. split; [intros Hx; split; [lia|auto]|intros [_ Hx]; auto].
    - split; [split; lia|]. intros _. now apply part_pos.
  Qed.

  Lemma protocol_round_trip data :
    get_protocol_parts uni (protocol_str data) = data <->
    data <> [] /\ forall name steps, In (name, steps) data ->
      ~ In underscore name /\ 0 <= steps /\
      (steps = 0 -> name = [] \/
         (last (split dash name) [] <> [] /\ int (last (split dash name) []) = None)).
  Proof.
    unfold get_protocol_parts, protocol_str. split.
    - intros E. assert (Hne : data <> []) by (intros ->; discriminate E). split; [exact Hne|].
      assert (HF : Forall (fun w => ~ In underscore w) (map format_protocol data)).
      { apply split_join_length; [destruct data; [contradiction|discriminate]|].
        apply (f_equal (@length _)) in E. now rewrite !map_length in *. }
      rewrite split_join in E by (exact HF || (destruct data; [contradiction|discriminate])).
      clear Hne. induction data as [|[nm st] data IH]; intros name steps Hin; [destruct Hin|].
      cbn [map] in E, HF. inversion HF as [|? ? HU HF']; subst. injection E as E1 E2.
      destruct Hin as [Eq|Hin]; [|apply (IH E2 HF'); exact Hin].
      injection Eq as <- <-. split; [intros HX; apply HU, format_underscore, HX|]. now apply part_round.
    - intros [Hne HG]. rewrite split_join; [|destruct data; [contradiction|discriminate]|].
      + rewrite map_map. rewrite <- (map_id data) at 2. apply map_ext_in. intros [nm st] Hin.
        apply part_round. exact (proj2 (HG nm st Hin)).
      + apply Forall_map, Forall_forall. intros [nm st] Hin. rewrite format_underscore. apply (HG nm st Hin).
  Qed.

  (** parsing is stable under formatting and parsing again, when no step count is written as zero *)
  Lemma protocol_stable s :
    (forall p, In p (split underscore s) -> protocol_part uni p = (p, 0) \/ 0 < snd (protocol_part uni p)) ->
    get_protocol_parts uni (protocol_str (get_protocol_parts uni s)) = get_protocol_parts uni s.
  Proof.
    intros H. unfold get_protocol_parts at 1. unfold protocol_str. rewrite split_join.
    - rewrite map_map. unfold get_protocol_parts. rewrite map_map. apply map_ext_in. intros p Hp.
      destruct (H p Hp) as [E|E].
      + rewrite E. cbn [format_protocol Z.eqb]. exact E.
      + destruct (protocol_part uni p) as [nm st]. apply part_pos. exact E.
    - unfold get_protocol_parts. pose proof (split_ne underscore s). destruct (split underscore s); [contradiction|discriminate].
    - unfold get_protocol_parts. rewrite map_map. apply Forall_map, Forall_forall. intros p Hp.
      pose proof (proj1 (Forall_forall _ _) (split_free underscore s) p Hp) as HF.
      destruct (protocol_part uni p) as [nm st] eqn:E. rewrite format_underscore.
      assert (HS : forall w, In w (split dash p) -> forall c, In c w -> In c p).
      { clear. intros w Hw c Hc. rewrite <- (join_split dash p). revert Hw. generalize (split dash p). intros l.
        induction l as [|x l IH]; intros Hw; [destruct Hw|]. destruct l as [|y l].
        - destruct Hw as [->|[]]. exact Hc.
        - rewrite join_cons by discriminate. rewrite !in_app_iff. destruct Hw as [->|Hw]; [now left|].
          right. right. apply IH, Hw. }
      assert (HJ : forall l, (forall w, In w l -> In w (split dash p)) -> ~ In underscore (join [dash] l)).
      { intros l. induction l as [|x l IH]; intros Hl; [intros []|]. destruct l as [|y l].
        - intros Hc. apply HF, (HS x); [apply Hl; now left|exact Hc].
        - rewrite join_cons by discriminate. rewrite !in_app_iff. intros [Hc|[[Ec|[]]|Hc]].
          + apply HF, (HS x); [apply Hl; now left|exact Hc].
          + discriminate Ec.
          + revert Hc. apply IH. intros w Hw. apply Hl. now right. }
      assert (HR : ~ In underscore (join [dash] (removelast (split dash p)))).
      { apply HJ. intros w. rewrite (app_removelast_last [] (split_ne dash p)) at 2. rewrite in_app_iff. now left. }
      unfold protocol_part in E. destruct (last (split dash p) []); [injection E as <- <-; exact HR|].
      destruct (int _); injection E as <- <-; [exact HR|]. apply HJ. auto.
  Qed.
End protocol.

(** Formatting what was parsed and parsing it again can give something else. *)
Lemma protocol_unstable : exists s, forall uni,
  get_protocol_parts uni (protocol_str (get_protocol_parts uni s)) <> get_protocol_parts uni s.
Proof. exists (lit "a-1-0"). intros uni. vm_compute. discriminate. Qed.

Lemma envdir_agrees name steps : name <> [] -> envdir_str (name, steps) = format_protocol (name, steps).
Proof. intros H. cbn. destruct (steps =? 0); [reflexivity|]. destruct name; [contradiction|reflexivity]. Qed.
