(** C77: z.py compresses a file without loss, with the models that it can use. *)
From Coq Require Import Lra.
From Verif Require Import Spec.ZipSpec Proofs.ZipModels Proofs.ZipFacts Proofs.ZipTop Proofs.ZipRuns.
Open Scope Z_scope.

(** With KT, PTW or FMN the output is the length and the code of the input; the figures printed are those of the two files. *)
Theorem C77_compress : forall uni little fmt elapsed memory fuel (fs : list (pystr * list Z)) args data, (32 < fuel)%nat ->
  depth_ok uni args -> usable (z_model args) -> z_compress args = true -> z_infile args <> z_outfile args ->
  gd_get streq fs (z_infile args) = Some data -> data <> [] -> Z.of_nat (length data) < 2 ^ 32 -> elapsed <> 0%R ->
  exists header code out fs', four_bytes little (Z.of_nat (length data)) header /\ coded (z_model args) data code /\ holds code out /\
    gd_get streq fs' (z_outfile args) = Some (header ++ out) /\ only_file (z_outfile args) fs fs' /\
    z_main uni little fmt elapsed memory fuel fs args =
      (fs', announcement (z_infile args) (Z.of_nat (length data)) :: bars (Z.of_nat (length data)) ++
       report fmt elapsed memory (Z.of_nat (length data)) (Z.of_nat (length (header ++ out))), Ok tt).
Proof. exact compress_run. Qed.
Print Assumptions C77_compress.

Example C77_compress_ex : forall uni, let args := a_call (lit "FMN") in
  depth_ok uni args /\ usable (z_model args) /\ z_infile args <> z_outfile args /\
  gd_get streq a_file (z_infile args) = Some [72; 101; 108; 108; 111].
Proof. intros uni args. destruct (call_ex uni (lit "FMN")) as (A & B & C & _). repeat split; try assumption. right. right. now left. Qed.

(** No two files get the same output. *)
Theorem C77_lossless : forall uni little fmt fuel fs1 args1 data1 e1 m1 fs2 args2 data2 e2 m2 fs1' sc1 fs2' sc2, (32 < fuel)%nat ->
  z_compress args1 = true -> z_compress args2 = true -> z_model args1 = z_model args2 ->
  z_infile args1 <> z_outfile args1 -> z_infile args2 <> z_outfile args2 ->
  gd_get streq fs1 (z_infile args1) = Some data1 -> gd_get streq fs2 (z_infile args2) = Some data2 ->
  Forall is_byte data1 -> Forall is_byte data2 ->
  z_main uni little fmt e1 m1 fuel fs1 args1 = (fs1', sc1, Ok tt) -> z_main uni little fmt e2 m2 fuel fs2 args2 = (fs2', sc2, Ok tt) ->
  gd_get streq fs1' (z_outfile args1) = gd_get streq fs2' (z_outfile args2) -> data1 = data2.
Proof. exact lossless_runs. Qed.
Print Assumptions C77_lossless.

Example C77_lossless_ex : forall uni little fmt, exists fs' sc, z_main uni little fmt 1 1 40 a_file (a_call (lit "PTW")) = (fs', sc, Ok tt).
Proof.
  intros uni little fmt. destruct (call_ex uni (lit "PTW")) as (A & B & C & _).
  destruct (compress_run uni little fmt 1 1 40 a_file (a_call (lit "PTW")) _ ltac:(lia) A ltac:(right; now left) eq_refl B C ltac:(discriminate)
    eq_refl R1_neq_R0) as (h & c & o & fs' & _ & _ & _ & _ & _ & E). rewrite E. do 2 eexists. reflexivity.
Qed.

(** The size of the code: at most nine bits above the log loss of the model's (quantised) probabilities. *)
Theorem C77_size : forall name data code out, coded name data code -> holds code out ->
  exists S (M : model S) m, used name S M m /\ forall fuel, (32 < fuel)%nat ->
    (INR (8 * length out) <= 9 + log_loss (quantised (coder_of M) 32 fuel (enc_init 32 m) (bits_of_file data)))%R.
Proof. exact size_bound. Qed.
Print Assumptions C77_size.

Example C77_size_ex : exists code out, coded (lit "KT") [72; 101; 108; 108; 111] code /\ holds code out.
Proof.
  destruct (call_ex (fun _ => None) (lit "KT")) as (A & B & C & _).
  destruct (compress_run (fun _ => None) true (fun _ _ => []) 1 1 40 a_file (a_call (lit "KT")) _ ltac:(lia) A ltac:(now left) eq_refl B C ltac:(discriminate)
    eq_refl R1_neq_R0) as (h & c & o & fs' & _ & H1 & H2 & _). now exists c, o.
Qed.

(** Bytes are handed to the coder in their order, with a bar after each 1024 and one at the end. *)
Theorem C77_reading : forall data, data <> [] -> let n := Z.of_nat (length data) in
  yields (bytes_with_progress data n) = data /\ quiet (bytes_with_progress data n) /\
  shows (bytes_with_progress data n) = bars n.
Proof. exact progress. Qed.
Print Assumptions C77_reading.

Theorem C77_bar : forall frac, (0 <= frac <= 1)%R -> exists n p, 0 <= n <= 60 /\ 0 <= p <= 100 /\
  (IZR n <= 60 * frac < IZR n + 1)%R /\ (IZR p <= 100 * frac < IZR p + 1)%R /\
  exists inner, progress_bar frac = 13 :: 91 :: inner ++ 93 :: 32 :: 32 :: str_of_int p ++ [37] /\ length inner = 60%nat /\
    (forall i, (i < 60)%nat -> nth i inner 0 = if Z.of_nat i <? n then 61 else if Z.of_nat i =? n then 62 else 32).
Proof. exact bar_width. Qed.
Print Assumptions C77_bar.

Theorem C77_last_bar : forall n, 0 < n -> exists pre, bars n = pre ++ [13 :: 91 :: repeat 61 60 ++ lit "]  100%"].
Proof. exact last_bar. Qed.
Print Assumptions C77_last_bar.

Example C77_bars_ex : bars 2000 = [13 :: lit "[==============================>                             ]  51%"; 13 :: lit "[============================================================]  100%"].
Proof. vm_compute. reflexivity. Qed.

(** The default model CTW, and FastCTW, CTW_KT, CTW_PTW: TypeError at the first bit; four bytes are left in the output. *)
Theorem C77_default_refuted : forall uni little fmt elapsed memory fuel (fs : list (pystr * list Z)) args data,
  depth_ok uni args -> with_history (z_model args) -> z_compress args = true -> z_infile args <> z_outfile args ->
  gd_get streq fs (z_infile args) = Some data -> data <> [] -> Z.of_nat (length data) < 2 ^ 32 ->
  exists header fs', four_bytes little (Z.of_nat (length data)) header /\
    z_main uni little fmt elapsed memory fuel fs args = (fs', [announcement (z_infile args) (Z.of_nat (length data))], Err TypeError) /\
    gd_get streq fs' (z_outfile args) = Some header /\ only_file (z_outfile args) fs fs'.
Proof. exact history_run. Qed.
Print Assumptions C77_default_refuted.

Example C77_default_ex : with_history (z_model (a_call (lit "CTW"))).
Proof. now left. Qed.

(** PTW_CTW and the like: AttributeError; a name that is not known: NameError; no number as depth: ValueError. Nothing is changed. *)
Theorem C77_common_refuted : forall uni little fmt elapsed memory fuel (fs : list (pystr * list Z)) args,
  depth_ok uni args -> common_history (z_model args) -> z_main uni little fmt elapsed memory fuel fs args = (fs, [], Err AttributeError).
Proof. exact common_run. Qed.
Print Assumptions C77_common_refuted.

Example C77_common_ex : common_history (z_model (a_call (lit "FMN_CTW"))).
Proof. right. right. right. now left. Qed.

Theorem C77_unknown : forall uni little fmt elapsed memory fuel (fs : list (pystr * list Z)) args, depth_ok uni args ->
  ~ usable (z_model args) -> ~ with_history (z_model args) -> ~ common_history (z_model args) ->
  z_main uni little fmt elapsed memory fuel fs args = (fs, [], Err NameError).
Proof. exact unknown_run. Qed.
Print Assumptions C77_unknown.

Example C77_unknown_ex : let name := lit "SAD" in ~ usable name /\ ~ with_history name /\ ~ common_history name.
Proof. repeat split; cbn; intuition discriminate. Qed.

Theorem C77_bad_depth : forall uni little fmt elapsed memory fuel (fs : list (pystr * list Z)) args,
  int_of_str uni (z_depth args) = None -> z_main uni little fmt elapsed memory fuel fs args = (fs, [], Err ValueError).
Proof. exact bad_depth. Qed.
Print Assumptions C77_bad_depth.

Example C77_bad_depth_ex : forall uni, int_of_str uni (lit "deep") = None.
Proof. reflexivity. Qed.

Theorem C77_missing : forall uni little fmt elapsed memory fuel (fs : list (pystr * list Z)) args,
  z_compress args = true -> gd_get streq fs (z_infile args) = None -> exists e, z_main uni little fmt elapsed memory fuel fs args = (fs, [], Err e).
Proof. exact missing_run. Qed.
Print Assumptions C77_missing.

(** uncompress never does anything: docopt's dictionary has no key decompress. *)
Theorem C77_uncompress_refuted : forall uni little fmt elapsed memory fuel (fs : list (pystr * list Z)) args,
  z_compress args = false -> exists e, z_main uni little fmt elapsed memory fuel fs args = (fs, [], Err e).
Proof. exact uncompress_run. Qed.
Print Assumptions C77_uncompress_refuted.

Theorem C77_uncompress_key : forall uni little fmt elapsed memory fuel (fs : list (pystr * list Z)) args,
  z_compress args = false -> depth_ok uni args -> usable (z_model args) \/ with_history (z_model args) ->
  z_main uni little fmt elapsed memory fuel fs args = (fs, [], Err KeyError).
Proof. exact uncompress_key. Qed.
Print Assumptions C77_uncompress_key.

(** An empty file: the output is written, then ZeroDivisionError. *)
Theorem C77_empty_refuted : forall uni little fmt elapsed memory fuel (fs : list (pystr * list Z)) args,
  depth_ok uni args -> usable (z_model args) \/ with_history (z_model args) -> z_compress args = true ->
  gd_get streq fs (z_infile args) = Some [] ->
  exists fs' screen, z_main uni little fmt elapsed memory fuel fs args = (fs', screen, Err ZeroDivisionError) /\
    gd_get streq fs' (z_outfile args) = Some [0; 0; 0; 0; 64] /\ only_file (z_outfile args) fs fs'.
Proof. exact empty_run. Qed.
Print Assumptions C77_empty_refuted.

(** A file compressed onto itself is lost, without an error. *)
Theorem C77_same_file_refuted : forall uni little fmt elapsed memory fuel (fs : list (pystr * list Z)) args data, elapsed <> 0%R ->
  depth_ok uni args -> usable (z_model args) \/ with_history (z_model args) -> z_compress args = true -> z_infile args = z_outfile args ->
  gd_get streq fs (z_infile args) = Some data -> data <> [] -> Z.of_nat (length data) < 2 ^ 32 ->
  exists header fs' screen, four_bytes little (Z.of_nat (length data)) header /\
    z_main uni little fmt elapsed memory fuel fs args = (fs', screen, Ok tt) /\
    gd_get streq fs' (z_infile args) = Some (header ++ [64]).
Proof. exact same_file_run. Qed.
Print Assumptions C77_same_file_refuted.

Example C77_same_file_ex : let args := ZArgs true (lit "novel") (lit "novel") (lit "KT") (lit "48") in
  usable (z_model args) /\ z_infile args = z_outfile args /\ gd_get streq a_file (z_infile args) = Some [72; 101; 108; 108; 111].
Proof. repeat split. now left. Qed.

(** 4 GiB or more: OverflowError, and the output is emptied. *)
Theorem C77_huge_refuted : forall uni little fmt elapsed memory fuel (fs : list (pystr * list Z)) args data,
  depth_ok uni args -> usable (z_model args) \/ with_history (z_model args) -> z_compress args = true ->
  gd_get streq fs (z_infile args) = Some data -> 2 ^ 32 <= Z.of_nat (length data) ->
  exists fs', z_main uni little fmt elapsed memory fuel fs args =
      (fs', [announcement (z_infile args) (Z.of_nat (length data))], Err OverflowError) /\
    gd_get streq fs' (z_outfile args) = Some [].
Proof. exact huge_run. Qed.
Print Assumptions C77_huge_refuted.

(** A run in no measurable time: the output is right, but the program ends with ZeroDivisionError. *)
Theorem C77_clock_refuted : forall uni little fmt elapsed memory fuel (fs : list (pystr * list Z)) args data, (32 < fuel)%nat ->
  depth_ok uni args -> usable (z_model args) -> z_compress args = true -> z_infile args <> z_outfile args ->
  gd_get streq fs (z_infile args) = Some data -> data <> [] -> Z.of_nat (length data) < 2 ^ 32 -> elapsed = 0%R ->
  exists header code out fs' screen, four_bytes little (Z.of_nat (length data)) header /\ coded (z_model args) data code /\ holds code out /\
    gd_get streq fs' (z_outfile args) = Some (header ++ out) /\
    z_main uni little fmt elapsed memory fuel fs args = (fs', screen, Err ZeroDivisionError).
Proof. exact clock_run. Qed.
Print Assumptions C77_clock_refuted.
