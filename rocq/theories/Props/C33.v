(** C33: update_seq and log_predict_seq: value, history, and total probability. *)
From Coq Require Import Lra.
From Verif Require Import Model.Iface Model.KT Spec.SeqSpec Proofs.SeqFacts.
From Verif Require Import Proofs.KTFacts Proofs.KTBinFacts.
Open Scope R_scope.

(** The value is the sum of the single updates on the growing history, and the history is
    the caller's again. Missing: the empty sequence, where it is false (below). *)
Theorem C33_update_seq_partial : forall S (M : model S) s seq hist w, seq <> [] ->
  update_seq M s seq hist w = do (s', l) <- run M s (events_from hist seq w); Ok (s', hist, l).
Proof. exact @update_seq_spec. Qed.
Print Assumptions C33_update_seq_partial.

Theorem C33_log_predict_seq_partial : forall S (M : model S) s seq hist, seq <> [] ->
  log_predict_seq M s seq hist = do l <- sum_logp M s hist seq; Ok (hist, l).
Proof. exact @log_predict_seq_spec. Qed.
Print Assumptions C33_log_predict_seq_partial.

Theorem C33_split : forall S (M : model S) s seq1 seq2 hist w, seq1 <> [] -> seq2 <> [] ->
  update_seq M s (seq1 ++ seq2) hist w =
  do (s1, h1, l1) <- update_seq M s seq1 hist w;
  do (s2, _, l2) <- update_seq M s1 seq2 (h1 ++ seq1) w;
  Ok (s2, h1, l1 + l2).
Proof. exact @update_seq_split. Qed.
Print Assumptions C33_split.

(** The probabilities of all sequences of length n sum to one (n = 0 included). *)
Theorem C33_total_probability : forall S (M : model S) A okh okw Inv, lawful M A okh okw Inv ->
  (forall h a, okh h -> In a A -> okh (h ++ [a])) -> forall n s hist w,
  Inv s -> okh hist -> okw w ->
  Rsum (map (fun seq => match update_seq M s seq hist w with Ok (_, _, l) => exp l | Err _ => 0 end)
            (words A n)) = 1.
Proof. exact @update_seq_total. Qed.
Print Assumptions C33_total_probability.

Example C33_ex : lawful KTB_model [0; 1]%Z any_hist nonneg ktb_inv /\ ktb_inv ktb_init /\
  words [0; 1]%Z 2 = [[0; 0]; [0; 1]; [1; 0]; [1; 1]]%Z /\
  events_from [1%Z] [0; 1]%Z 1 = [Event 0 [1%Z] 1; Event 1 [1; 0]%Z 1].
Proof. split; [apply ktb_lawful|]. split; [apply ktb_inv_init|]. split; reflexivity. Qed.

(** With an empty sequence the caller's history is erased: [-0:] is the whole list. *)
Theorem C33_update_seq_refuted : exists hist s hist' l,
  update_seq KTB_model s [] hist 1 = Ok (s, hist', l) /\ hist' <> hist.
Proof. exact update_seq_history_refuted. Qed.
Print Assumptions C33_update_seq_refuted.

Theorem C33_log_predict_seq_refuted : exists hist s hist' l,
  log_predict_seq KTB_model s [] hist = Ok (hist', l) /\ hist' <> hist.
Proof. exact log_predict_seq_history_refuted. Qed.
Print Assumptions C33_log_predict_seq_refuted.

Theorem C33_empty_erases : forall S (M : model S) s hist w, update_seq M s [] hist w = Ok (s, [], 0).
Proof. exact @update_seq_empty. Qed.
Print Assumptions C33_empty_erases.
