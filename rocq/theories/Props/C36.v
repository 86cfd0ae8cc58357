(** C36: the compressed length matches the model's probability. *)
From Coq Require Import Lra.
From Verif Require Import Model.CtwPTW Spec.ACSpec Proofs.ACLength Proofs.ACKT Proofs.ACTop.
Open Scope Z_scope.

(** At most two bits more than the base-2 log loss of the quantised probabilities. *)
Theorem C36_code_length : forall S (M : model S) Inv N fuel, (2 <= N)%nat -> (N < fuel)%nat ->
  at_most_one M Inv -> forall m bits code, Inv m -> Forall is_bit bits ->
  compress (coder_of M) N fuel m bits = Ok code ->
  let qs := quantised (coder_of M) N fuel (enc_init N m) bits in
  length qs = length bits /\ Forall (fun x => 0 < x <= 1)%R qs /\
  (INR (length code) <= 2 + log_loss qs)%R.
Proof. exact @code_length. Qed.
Print Assumptions C36_code_length.

(** Quantisation moves each of the model's probabilities by at most one unit of the interval. *)
Theorem C36_quantisation : forall S (M : model S) Inv okh okw N fuel,
  lawful M [0; 1] okh okw Inv -> okh [] -> okw 1%R -> (2 <= N)%nat -> (N < fuel)%nat ->
  forall bits s, Forall is_bit bits -> Inv (en_model s) -> working N s -> en_follow s = 0%nat ->
  Forall2 (fun x pr => Rabs (x - fst pr) <= / IZR (snd pr) /\ 2 <= IZR (snd pr))%R
    (quantised (coder_of M) N fuel s bits) (ideal M N fuel s bits).
Proof. exact @quantised_ideal. Qed.
Print Assumptions C36_quantisation.

Example C36_ex : exists code,
  at_most_one (q_model QKT_class) (CtwKTFacts.qkt_inv [0; 1]) /\
  CtwKTFacts.qkt_inv [0; 1] (qkt_init [0; 1]) /\ Forall is_bit [1; 0; 1; 1; 0; 0] /\
  compress QKT_coder 32 40 (qkt_init [0; 1]) [1; 0; 1; 1; 0; 0] = Ok code /\
  working 32 (enc_init 32 (qkt_init [0; 1])).
Proof.
  assert (Hb : Forall is_bit [1; 0; 1; 1; 0; 0])
    by (repeat apply Forall_cons; try apply Forall_nil; (now left) || now right).
  eexists. split; [|split; [apply qkt_init_inv|]].
  - apply (lawful_at_most_one _ _ (fun _ => True) (fun w => 0 <= w)%R); [apply qkt_lawful|exact I|lra].
  - split; [exact Hb|]. rewrite (kt_compress 32 40 _ Hb). split; [vm_compute; reflexivity|].
    apply init_working. lia.
Qed.
