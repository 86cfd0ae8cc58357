(** C48: data files read through protocols. *)
From Verif Require Import Model.FileEnvironment Spec.FileEnvironment Proofs.FileEnvironmentFacts.
Open Scope Z_scope.

(** A block has as many rows as steps are asked for, or all rows of the file if none are; row i is
    row (i mod size) of the file. *)
Theorem C48_block : forall (Row : Type) (s : FileEnv Row) d, fe_data s = Some d ->
  fe_max s <= 0 \/ d <> [] ->
  exists out, get_data_block s =
    Ok (Some out, {| fe_iter := fe_iter s; fe_dir := fe_dir s; fe_max := fe_max s;
          fe_step := fe_step s; fe_local := Z.of_nat (span (fe_max s) d); fe_data := Some d |}) /\
    looped d out (if 0 <? fe_max s then Z.to_nat (fe_max s) else length d).
Proof. exact @block_spec. Qed.
Print Assumptions C48_block.
Example C48_block_ex :
  get_data_block {| fe_iter := Some []; fe_dir := Some (lit "a"); fe_max := 7; fe_step := 0;
                    fe_local := 0; fe_data := Some [10; 20; 30] |}
  = Ok (Some [10; 20; 30; 10; 20; 30; 10],
        {| fe_iter := Some []; fe_dir := Some (lit "a"); fe_max := 7; fe_step := 0;
           fe_local := 7; fe_data := Some [10; 20; 30] |}).
Proof. reflexivity. Qed.

(** Rows asked of an empty file raise. *)
Theorem C48_empty : forall (Row : Type) (s : FileEnv Row), fe_data s = Some [] -> 0 < fe_max s ->
  get_data_block s = Err ZeroDivisionError.
Proof. exact @block_empty. Qed.
Print Assumptions C48_empty.

(** get_all_data is the concatenation of the blocks of all parts of the protocol. *)
Theorem C48_all : forall (Row : Type) (read : pystr -> option Z -> result (list Row)) filters
  protocol blocks (s : FileEnv Row), protocol <> [] ->
  Forall2 (block_of read filters) protocol blocks ->
  exists s', get_all_data read filters protocol s = Ok (List.concat blocks, s') /\ fe_iter s' = None.
Proof. exact @all_data_spec. Qed.
Print Assumptions C48_all.

(** Calling update over and over gives the rows of get_all_data, then None once, and then starts
    again, forever. *)
Theorem C48_stream_partial : forall (Row : Type) (read : pystr -> option Z -> result (list Row))
  filters protocol blocks, Forall2 (streamed read filters) protocol blocks ->
  forall n (s : FileEnv Row), fe_iter s = None ->
  exists s', fe_updates read filters protocol n s
    = Ok (map (nth_update (List.concat blocks)) (seq 0 n), s').
Proof. exact @stream_spec. Qed.
Print Assumptions C48_stream_partial.
Example C48_stream_ex :
  let read (d : pystr) (n : option Z) :=
    Ok (if streq d (lit "a") then [1; 2] else match n with Some _ => [7] | None => [7; 8; 9] end) in
  Forall2 (streamed read Ok) [(lit "a", 3); (lit "b", 0); (lit "b", 2)] [[1; 2; 1]; [7; 8; 9]; [7; 7]] /\
  exists s', fe_updates read Ok [(lit "a", 3); (lit "b", 0); (lit "b", 2)] 11
      {| fe_iter := None; fe_dir := None; fe_max := 0; fe_step := -1; fe_local := -1; fe_data := None |}
    = Ok ([Some 1; Some 2; Some 1; Some 7; Some 8; Some 9; Some 7; Some 7; None; Some 1; Some 2], s').
Proof.
  intros read. split; [|eexists; vm_compute; reflexivity].
  assert (I : forall i, (i < 3)%nat -> i = 0%nat \/ i = 1%nat \/ i = 2%nat) by lia.
  constructor; [|constructor; [|constructor; [|constructor]]]; (split; [cbn [snd]; lia|]);
    (split; [discriminate|]).
  - exists [1; 2], [1; 2]. split; [discriminate|]. split; [reflexivity|]. split; [reflexivity|].
    split; [right; discriminate|]. split; [reflexivity|].
    intros i Hi. destruct (I i Hi) as [->|[-> | ->]]; reflexivity.
  - exists [7; 8; 9], [7; 8; 9]. split; [discriminate|]. split; [reflexivity|]. split; [reflexivity|].
    split; [right; discriminate|]. split; [reflexivity|].
    intros i Hi. destruct (I i Hi) as [->|[-> | ->]]; reflexivity.
  - exists [7], [7]. split; [discriminate|]. split; [reflexivity|]. split; [reflexivity|].
    split; [right; discriminate|]. split; [reflexivity|].
    intros i Hi. assert (i = 0%nat \/ i = 1%nat) as [-> | ->] by (cbn in Hi; lia); reflexivity.
Qed.

(** The global step then counts the rows. *)
Theorem C48_step : forall (Row : Type) (read : pystr -> option Z -> result (list Row))
  filters protocol blocks (s : FileEnv Row), protocol <> [] ->
  Forall2 (streamed read filters) protocol blocks -> fe_iter s = None ->
  exists s', fe_updates read filters protocol (length (List.concat blocks)) s
      = Ok (map Some (List.concat blocks), s') /\
    fe_step s' = Z.of_nat (length (List.concat blocks)).
Proof. exact @step_count. Qed.
Print Assumptions C48_step.

(** With negative steps the two ways of reading differ: all rows at once, but only the first when
    stepping. *)
Theorem C48_negative_refuted : forall (Row : Type) (read : pystr -> option Z -> result (list Row))
  filters (d : pystr) m raw x y src (s : FileEnv Row), d <> [] -> m < 0 ->
  read d None = Ok raw -> filters raw = Ok (x :: y :: src) -> fe_iter s = None ->
  (exists s', get_all_data read filters [(d, m)] s = Ok (x :: y :: src, s')) /\
  exists s', fe_updates read filters [(d, m)] 2 s = Ok ([Some x; None], s').
Proof. exact @negative_steps. Qed.
Print Assumptions C48_negative_refuted.

(** An empty file is skipped by get_all_data, but stepping raises. *)
Theorem C48_empty_refuted : forall (Row : Type) (read : pystr -> option Z -> result (list Row))
  filters (d : pystr) raw (s : FileEnv Row), d <> [] ->
  read d None = Ok raw -> filters raw = Ok [] -> fe_iter s = None ->
  (exists s', get_all_data read filters [(d, 0)] s = Ok ([], s')) /\
  fe_update read filters [(d, 0)] s = Err ZeroDivisionError.
Proof. exact @empty_file. Qed.
Print Assumptions C48_empty_refuted.
