(** C75: examples. *)
From Verif Require Import Model.LogFiles Spec.LogFilesSpec Proofs.StrFacts Proofs.LogDataFacts Proofs.LogSave Proofs.LogEx Proofs.LogFilesFacts.
Open Scope Z_scope.

Definition no_uni : pystr -> bool := fun _ => false.
Definition log_path : pystr := lit "logs/run 1.txt".
Definition log_heads : list pystr := [lit "t"; lit "loss-x"].
Definition log_rows : list (list pystr) := [[lit "0"; lit "1.5"]; [lit "1"; lit "a"]].

Lemma ex_writable safe : writable [(lit "other", lit "x")] log_path safe.
Proof.
  split; [|reflexivity]. exists (lit "logs"), (lit "run 1.txt"). split; [reflexivity|]. split; [discriminate|]. split.
  - intros d' E. apply (f_equal (@rev Z)) in E. rewrite rev_app_distr in E. discriminate.
  - split; [discriminate|]. split; [|reflexivity]. intros H. apply has_char_in in H. discriminate.
Qed.

Lemma ex_log_data : log_data ascii_only no_uni log_path [lit "a note"] log_heads log_rows.
Proof.
  constructor.
  - apply one_line_dec; reflexivity.
  - constructor; [|constructor]. apply one_line_dec; reflexivity.
  - exists 116, [], [lit "loss-x"]. repeat split. discriminate.
  - repeat constructor; try discriminate; apply wordy_dec; (discriminate || reflexivity).
  - repeat constructor; try discriminate; apply wordy_dec; (discriminate || reflexivity).
Qed.

Lemma session_ex :
  let w := Writer (lit "run 1.txt") log_path [] true (Some true) in
  writable [(lit "other", lit "x")] (target (lit "run 1.txt") (Some (lit "logs"))) true /\
  writes [lit "a note"] log_heads log_rows HNone
    ([WComment (lit "a note")] ++ WList log_heads :: map WList log_rows) /\
  exists fs1 fs2, log_writer [(lit "other", lit "x")] (lit "run 1.txt") (Some (lit "logs")) true HNone = (fs1, Ok w) /\
    wrun fs1 w ([WComment (lit "a note")] ++ WList log_heads :: map WList log_rows) = (fs2, w, Ok tt) /\
    fs2 = [(lit "other", lit "x");
           (log_path, lit "# run 1.txt" ++ [10] ++ lit "# a note" ++ [10] ++ lit "t loss-x" ++ [10] ++ lit "0 1.5" ++ [10] ++ lit "1 a" ++ [10])] /\
    check_headers ascii_only fs2 log_path (Some [lit "loss"]) = Ok [lit "loss-x"] /\
    exists r, log_reader fs2 (lit "run 1.txt") (Some (lit "logs")) = Ok r /\
      snd (get_headers ascii_only no_uni r) = Some log_heads /\
      snd (iterate ascii_only 2 (fst (get_headers ascii_only no_uni r))) =
        Ok [[(Some (lit "t"), lit "0"); (Some (lit "loss-x"), lit "1.5")]; [(Some (lit "t"), lit "1"); (Some (lit "loss-x"), lit "a")]].
Proof.
  split; [exact (ex_writable true)|]. split; [apply writes_later; constructor|].
  do 2 eexists. split; [vm_compute; reflexivity|]. split; [vm_compute; reflexivity|]. split; [reflexivity|]. split; [vm_compute; reflexivity|].
  eexists. split; [vm_compute; reflexivity|]. split; vm_compute; reflexivity.
Qed.

Lemma frame_ex : log_data ascii_only no_uni (lit "l.txt") [] [lit "a"; lit "b"; lit "c"] [] /\ wordy ascii_only (lit "l.txt") /\
  length [lit "a"; lit "b"; lit "c"] <> 2%nat.
Proof.
  split; [|split; [apply wordy_dec; (discriminate || reflexivity)|discriminate]]. constructor.
  - apply one_line_dec; reflexivity.
  - constructor.
  - exists 97, [], [lit "b"; lit "c"]. repeat split. discriminate.
  - repeat constructor; try discriminate; apply wordy_dec; (discriminate || reflexivity).
  - constructor.
Qed.
