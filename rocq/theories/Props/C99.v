(** C99: KT and SAD over any alphabet pay for the symbols that occur, not for the alphabet. [used xs] is
    the number of different symbols of [xs]; [theta] is any memoryless source. *)
From Coq Require Import Lra Lia.
From Verif Require Import Model.KT Spec.MemorylessSpec Proofs.KTAny Proofs.SADRedundancy Proofs.RealFacts Proofs.EstimatorProps.
Open Scope R_scope.

(** KT over d >= 2 symbols: about half a logarithm, and for each symbol that occurs ln d and 1/2 - 1/d
    logarithms. [l] is the sum of the values returned by update. *)
Theorem C99_kt : forall A theta xs s l, NoDup A -> (2 <= length A)%nat -> Forall (fun x => In x A) xs -> xs <> [] ->
  is_source A theta -> 0 < source_prob theta xs -> run KT_model (kt_init A) (unit_events xs) = Ok (s, l) ->
  - l <= - ln (source_prob theta xs) + (/ 2 + (/ 2 - / INR (length A)) * INR (used xs)) * ln (INR (length xs)) +
         INR (used xs) * ln (INR (length A)) + 1 - 7 / 8 * INR (used xs).
Proof. exact kt_any_redundancy. Qed.
Print Assumptions C99_kt.

(** SAD: for each symbol that occurs ln d, half a logarithm and an iterated logarithm. *)
Theorem C99_sad : forall A theta xs s l, NoDup A -> Forall (fun x => In x A) xs -> xs <> [] ->
  is_source A theta -> 0 < source_prob theta xs -> run SAD_model (sad_init (Z.of_nat (length A))) (unit_events xs) = Ok (s, l) ->
  - l <= - ln (source_prob theta xs) +
         INR (used xs) * (ln (INR (length A)) + / 2 * ln (INR (length xs)) + 3 / 2 * ln (1 + ln (INR (length xs))) + 4).
Proof. exact sad_redundancy. Qed.
Print Assumptions C99_sad.

(** Neither raises. *)
Theorem C99_runs : forall A xs, NoDup A -> A <> [] -> Forall (fun x => In x A) xs ->
  (exists s l, run KT_model (kt_init A) (unit_events xs) = Ok (s, l)) /\
  (exists s l, run SAD_model (sad_init (Z.of_nat (length A))) (unit_events xs) = Ok (s, l)).
Proof. exact any_runs. Qed.
Print Assumptions C99_runs.

Example C99_case : let A := [0; 1; 2; 3; 4]%Z in let xs := [3; 1; 3]%Z in
  let theta := fun a : Z => if (a =? 3)%Z then 2 / 3 else if (a =? 1)%Z then 1 / 3 else 0 in
  NoDup A /\ (2 <= length A)%nat /\ Forall (fun x => In x A) xs /\ xs <> [] /\ is_source A theta /\ 0 < source_prob theta xs /\ used xs = 2%nat.
Proof.
  cbv zeta. split; [repeat constructor; cbn; intuition lia|]. split; [cbn; lia|]. split; [repeat constructor; cbn; tauto|]. split; [discriminate|]. split.
  - split; [cbn; intros a [<-|[<-|[<-|[<-|[<-|[]]]]]]; cbn; lra|]. cbn [map]. rewrite !Rsum_cons, Rsum_nil. cbn. lra.
  - split; [unfold source_prob; cbn; lra|reflexivity].
Qed.
