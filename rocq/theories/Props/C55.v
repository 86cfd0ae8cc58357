(** C55: join_params and split_params of utilities.py. *)
From Verif Require Import Spec.UtilNames Proofs.UtilNamesFacts.
Open Scope Z_scope.

(** The keys come back, and with every key the value described by [comes_back]: None, numbers,
    texts that do not read as numbers, lists of three or more of these, lists of two that begin
    with a text. *)
Theorem C55_round_trip_partial : forall (F : Type) (float_of : pystr -> option F) (fneg : F -> F)
  uni uninumeric numeq (d : list (pystr * uval)), NoDup (map fst d) -> d <> [] ->
  (forall k v, In (k, v) d -> name_like float_of uninumeric k /\ ~ In dash k /\
     exists r, comes_back float_of fneg uninumeric v r) ->
  exists params, usplit_params float_of fneg uni uninumeric numeq (join_params d) = Ok params /\
    (forall i, In i (map fst params) <-> exists k, i = IStr k /\ In k (map fst d)) /\
    (forall k v r, In (k, v) d -> comes_back float_of fneg uninumeric v r ->
       gd_get (item_eq numeq) params (IStr k) = Some r).
Proof. exact @uround. Qed.
Print Assumptions C55_round_trip_partial.
Example C55_ex :
  let float_of (s : pystr) : option Z := if streq s (lit "0.1") then Some 100 else None in
  let d := [(lit "trace_rate", UOne UNone); (lit "alpha", UOne (UNum (lit "0.1") None));
            (lit "n", UOne (UInt (-3))); (lit "l", UList [UStr (lit "a"); UInt 4])] in
  join_params d = lit "alpha-0.1_l-a-4_n--3_trace_rate-None" /\
  (forall k v, In (k, v) d -> name_like float_of (fun _ => false) k /\ ~ In dash k /\
     exists r, comes_back float_of Z.opp (fun _ => false) v r).
Proof.
  intros float_of d. split; [reflexivity|].
  assert (S : forall s, forallb allowed s = true -> Forall safe s).
  { intros s H. apply Forall_forall. intros c Hc. rewrite forallb_forall in H.
    now apply FileNamesFacts.allowed_safe, H. }
  assert (N : forall s, forallb allowed s = true -> isnumeric (fun _ => false) s = false ->
    streq s (lit "None") = false -> float_of s = None -> name_like float_of (fun _ => false) s).
  { intros s H1 H2 H3 H4. split; [auto|]. split; [exact H2|]. split; [intros ->; discriminate|exact H4]. }
  intros k v H. repeat destruct H as [H|H]; try (injection H as <- <-); try destruct H.
  - split; [apply N; reflexivity|]. split; [cbn; unfold dash; lia|]. eexists. apply comes_one, back_none.
  - split; [apply N; reflexivity|]. split; [cbn; unfold dash; lia|]. eexists. apply comes_one.
    eapply back_num; [|reflexivity|discriminate|reflexivity].
    split; [apply S; reflexivity|]. split; cbn; unfold dash, underscore; lia.
  - split; [apply N; reflexivity|]. split; [cbn; unfold dash; lia|]. eexists. apply comes_negative; [lia|reflexivity].
  - split; [apply N; reflexivity|]. split; [cbn; unfold dash; lia|]. eexists. eapply comes_two; [| |apply back_int; lia|reflexivity].
    + discriminate.
    + apply back_str; [apply N; reflexivity| |]; cbn; unfold dash, underscore; lia.
Qed.

(** Reading back a list of exactly two numbers raises. *)
Theorem C55_two_numbers_refuted : forall (F : Type) (float_of : pystr -> option F) (fneg : F -> F)
  uni uninumeric numeq k m n, name_like float_of uninumeric k -> ~ In dash k -> 0 <= m -> 0 <= n ->
  usplit_params float_of fneg uni uninumeric numeq (join_params [(k, UList [UInt m; UInt n])])
  = Err TypeError.
Proof. exact @two_numbers_raise. Qed.
Print Assumptions C55_two_numbers_refuted.

(** Numbers in lists lose their sign. *)
Theorem C55_sign_refuted : forall m l,
  join_items (UList (UInt (- m) :: l)) false = join_items (UList (UInt m :: l)) false.
Proof. exact sign_lost. Qed.
Print Assumptions C55_sign_refuted.
