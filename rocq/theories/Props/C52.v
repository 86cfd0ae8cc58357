(** C52: scaling features into the unit interval. *)
From Coq Require Import Lra.
From Verif Require Import Model.Signals Proofs.SignalFacts.
Open Scope R_scope.

(** A signal with two different values is mapped affinely onto [0, 1], its smallest value to 0 and
    its largest to 1. *)
Theorem C52_scale_default : forall f : list R, (exists x y, In x f /\ In y f /\ x <> y) ->
  exists g mn mx, scale_features f None None 1 = Ok g /\ In mn f /\ In mx f /\
    (forall x, In x f -> mn <= x <= mx) /\
    g = map (fun x => (x - mn) / (mx - mn)) f /\
    (forall y, In y g -> 0 <= y <= 1) /\ In 0 g /\ In 1 g.
Proof. exact scale_default. Qed.
Print Assumptions C52_scale_default.
Example C52_ex : exists x y : R, In x [3; 5; 4] /\ In y [3; 5; 4] /\ x <> y.
Proof. exists 3, 5. cbn. repeat split; auto. lra. Qed.

(** With given bounds the values are scaled and cut off at 0 and the cap. *)
Theorem C52_scale_given : forall (f : list R) (mn mx cap : R), mn < mx -> 0 < cap ->
  exists g, scale_features f (Some mn) (Some mx) cap = Ok g /\ length g = length f /\
    forall i, (i < length f)%nat ->
      nth i g 0 = Rmax 0 (Rmin cap ((nth i f 0 - mn) / (mx - mn))).
Proof. exact scale_given. Qed.
Print Assumptions C52_scale_given.

Theorem C52_scale_val : forall val lo hi cap : R, lo < hi -> 0 < cap ->
  scale_val val (lo, hi) cap = Ok (Rmax 0 (Rmin cap ((val - lo) / (hi - lo)))).
Proof. exact scale_val_spec. Qed.
Print Assumptions C52_scale_val.

(** A constant signal is returned as it is, whatever its value and the cap. *)
Theorem C52_constant_refuted : forall (f : list R) (c cap : R), f <> [] ->
  (forall x, In x f -> x = c) -> scale_features f None None cap = Ok f.
Proof. exact scale_constant. Qed.
Print Assumptions C52_constant_refuted.
Example C52_constant_ex : exists f, scale_features f None None 1 = Ok f /\ In 7 f.
Proof.
  exists [7; 7]. split; [|now left]. apply (scale_constant _ 7); [discriminate|].
  intros x [<-|[<-|[]]]; reflexivity.
Qed.
