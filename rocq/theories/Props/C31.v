(** C31: FMN competes with re-using any retained models on the segments of any partition. *)
From Verif Require Import Model.FMN Spec.FMNSpec Proofs.FMNFacts Proofs.FMNProps.
From Verif Require Props.C29.
Open Scope R_scope.

(** [sgs]: the segments of the partition in which some symbol was seen. [choice b]: the model,
    retained when the segment starting at [b] begins, to be used on that segment. The last
    term is the price of not knowing the sequence length (C23). *)
Theorem C31_fmn_competes : forall S T (M : model S) (C : store_class T) TI A okh okw Inv,
  store_law C TI -> forall m, steps M A okh okw Inv -> forall fresh evs s0 s l p (choice : nat -> S),
  Inv fresh -> Forall (ok_event A okh okw) evs ->
  fmn_init C m fresh = Ok s0 -> run (FMN_model M C m) s0 evs = Ok (s, l) ->
  let d := levels m (length evs) in
  let sgs := filter (fun sg : nat * nat => (fst sg <? length evs)%nat) (segments m d 0 p) in
  is_part d p ->
  (forall sg, In sg sgs -> In (choice (fst sg)) (retained M C m s0 evs (fst sg))) ->
  - l <= Rsum (map (fun sg => - ln (seq_prob M (choice (fst sg)) (firstn (snd sg) (skipn (fst sg) evs)))
                              + ln (INR (length (retained M C m s0 evs (fst sg))))) sgs)
         + INR (pcost d p) * ln 2 + INR (pred d) * ln (3 / 2).
Proof. exact @fmn_competes. Qed.
Print Assumptions C31_fmn_competes.

(** [C29.C29_ex] is a run meeting the hypotheses; for its 3 symbols and period 2 the
    partition into two segments of length 2 is admissible. *)
Example C31_ex : levels 1 3 = 1%nat /\ is_part 1 (Halves Whole Whole) /\
  filter (fun sg : nat * nat => (fst sg <? 3)%nat) (segments 1 1 0 (Halves Whole Whole)) =
    [(0, 2); (2, 2)]%nat /\ pcost 1 (Halves Whole Whole) = 1%nat.
Proof. repeat split; reflexivity. Qed.
