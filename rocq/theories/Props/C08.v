(** C08: the Averager is the uniform Bayesian mixture of its (distinct) models. The members
    are any models M whose calls succeed on the alphabet ([steps]); for normalisation they
    are [lawful]. *)
From Coq Require Import Lra.
From Verif Require Import Model.Averager Model.KT Spec.KTSpec.
From Verif Require Import Proofs.KTFacts Proofs.AveragerProps.
Open Scope R_scope.

Theorem C08_averager_mixture : forall S (M : model S) A okh okw Inv ms evs,
  steps M A okh okw Inv ->
  ms <> [] -> NoDup (map fst ms) -> (forall k m, In (k, m) ms -> Inv m) ->
  Forall (ok_event A okh okw) evs ->
  exists s0 s l, avg_init ms = Ok s0 /\ run (AVG_model M) s0 evs = Ok (s, l) /\
    exp l = / INR (length ms) * Rsum (map (fun km => seq_prob M (snd km) evs) ms).
Proof. exact @averager_mixture. Qed.
Print Assumptions C08_averager_mixture.

Theorem C08_averager_normalised : forall S (M : model S) A okh okw Inv ms evs h,
  lawful M A okh okw Inv -> (exists w, okw w) ->
  ms <> [] -> NoDup (map fst ms) -> (forall k m, In (k, m) ms -> Inv m) ->
  Forall (ok_event A okh okw) evs -> okh h ->
  exists s0 s l, avg_init ms = Ok s0 /\ run (AVG_model M) s0 evs = Ok (s, l) /\
    Rsum (map (fun a => pred_prob (AVG_model M) s a h) A) = 1.
Proof. exact @averager_normalised. Qed.
Print Assumptions C08_averager_normalised.

(** Three KT estimators, one of them already trained. *)
Definition C08_members : list (Z * kt) :=
  [(1%Z, kt_init [0; 1]%Z); (2%Z, KT [(0%Z, 5); (1%Z, 1)] 6); (3%Z, kt_init [0; 1]%Z)].
Example C08_ex :
  lawful KT_model [0; 1]%Z any_hist nonneg (kt_inv [0; 1]%Z) /\ (exists w, nonneg w) /\
  C08_members <> [] /\ NoDup (map fst C08_members) /\
  (forall k m, In (k, m) C08_members -> kt_inv [0; 1]%Z m) /\
  Forall (ok_event [0; 1]%Z any_hist nonneg) (unit_events [0; 1; 1]%Z).
Proof.
  assert (HA : NoDup [0; 1]%Z) by (repeat constructor; cbn; intuition discriminate).
  split; [apply kt_lawful|]. split; [exists 1; unfold nonneg; lra|]. split; [discriminate|].
  split; [repeat constructor; cbn; intuition discriminate|]. split.
  - intros k m [H|[H|[H|[]]]]; injection H as <- <-; try (apply kt_inv_init; [exact HA|discriminate]).
    repeat split; cbn; auto; try discriminate.
    + intros v [<-|[<-|[]]]; lra.
    + unfold Rsum; cbn; lra.
  - repeat apply Forall_cons; try apply Forall_nil; unfold ok_event, any_hist, nonneg; cbn; intuition lra.
Qed.

(** Passing the same object twice breaks the prior: predictions then sum to 1/2. *)
Theorem C08_averager_duplicates_refuted : exists (ms : list (Z * ktb)) s, ms <> [] /\
  (forall k m, In (k, m) ms -> m = ktb_init) /\ avg_init ms = Ok s /\
  Rsum (map (fun a => pred_prob (AVG_model KTB_model) s a []) [0; 1]%Z) = / 2.
Proof. exact averager_duplicates_refuted. Qed.
Print Assumptions C08_averager_duplicates_refuted.
