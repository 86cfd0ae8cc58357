(** C71: the experiment of the notebook on the hallway. CTW_KT of depth two or more, as second factor
    beside Dumb, learns the observations: its total loss on n of them grows with the logarithm of n,
    whatever the actions; and so does that of FMN over CTW_KT. *)
From Coq Require Import Lra.
From Verif Require Import Model.CTW Model.FMN Model.Factored Spec.PomdpSpec Spec.SourceSpec Spec.PTWSpec.
From Verif Require Import Proofs.PomdpCTW.
Open Scope R_scope.

Theorem C71_ctw : forall (G : Type) (random : G -> R * G) D p n g, (2 <= D)%nat -> (0 < n)%nat ->
  exists bs o f g' s l, gen_take random (2 * n) (OHallway (new_hallway p)) Begin g = (bs, o, f, g') /\
    update_seq (Factored_model (either_model Dumb_model CTWKT_model)) [inl tt; inr (ctwkt_init (Z.of_nat D))]
      (symbols bs) [] 1 = Ok (s, [], l) /\
    - l <= 1 + ln (INR n + 1) + 4 * learn n + 7 * ln 2.
Proof. exact @whole_ctw. Qed.
Print Assumptions C71_ctw.

Theorem C71_fmn : forall (G : Type) (random : G -> R * G) D m p n g, (2 <= D)%nat -> (0 < n)%nat ->
  exists bs o f g' s0 s l, gen_take random (2 * n) (OHallway (new_hallway p)) Begin g = (bs, o, f, g') /\
    fmn_init (LogStore_class ctwkt) m (ctwkt_init (Z.of_nat D)) = Ok s0 /\
    update_seq (Factored_model (either_model Dumb_model (FMN_model CTWKT_model (LogStore_class ctwkt) m))) [inl tt; inr s0]
      (symbols bs) [] 1 = Ok (s, [], l) /\
    - l <= 1 + ln (INR n + 1) + 4 * learn n + 8 * ln 2 + INR (pred (levels m n)) * ln (3 / 2).
Proof. exact @whole_fmn. Qed.
Print Assumptions C71_fmn.

(** Depth 8, the first six observations of a hallway. *)
Example C71_ex : (2 <= 8)%nat /\ (0 < 6)%nat /\
  symbols (interleave [true; false; true; true; false; true]
    (sights (OHallway (new_hallway (19 / 20))) [true; false; true; true; false; true])) =
  [1; 1; 0; 0; 1; 0; 1; 0; 0; 1; 1; 1]%Z.
Proof. repeat split; repeat constructor. Qed.
