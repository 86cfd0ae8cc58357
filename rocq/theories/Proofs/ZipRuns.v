(** The runs of z.py. *)
From Coq Require Import Lra.
From Verif Require Import Spec.ZipSpec Proofs.PyFacts Proofs.DictFacts Proofs.StrFacts Proofs.ACFacts Proofs.ACModel Proofs.ACBytes Proofs.ACLength Proofs.ACLossless Proofs.ZipModels Proofs.ZipFacts Proofs.ZipTop.
Open Scope Z_scope.

Section runs.
  Variables (uni : pystr -> option Z) (little : bool) (fmt : nat -> R -> pystr) (elapsed memory : R) (fuel : nat).
  Local Notation run := (z_main uni little fmt elapsed memory fuel).
  Implicit Types fs : list (pystr * list Z).

  Lemma stats_ok codelen n : n <> 0 -> elapsed <> 0%R ->
    statistics fmt elapsed memory codelen n None = (report fmt elapsed memory n (codelen + 4), Ok tt).
  Proof.
    intros Hn He. unfold statistics. destruct (Z.eqb_spec n 0); [easy|]. destruct (Req_EM_T elapsed 0); [easy|].
    unfold report, z_stats. replace (8 * (codelen + 4)) with ((codelen + 4) * 8) by lia. reflexivity.
  Qed.

  Lemma set_twice_other fs p v v' : only_file p fs (gd_set streq (gd_set streq fs p v) p v').
  Proof.
    intros q Hq. rewrite get_two. destruct (streq p q) eqn:E; [|reflexivity]. apply streq_spec in E. congruence.
  Qed.
  Lemma set_twice_same fs p v v' : gd_get streq (gd_set streq (gd_set streq fs p v) p v') p = Some v'.
  Proof. rewrite get_two. now rewrite (proj2 (streq_spec p p) eq_refl). Qed.

  Lemma unset_other fs p q : p <> q -> gd_get streq (gd_set streq fs p []) q = gd_get streq fs q.
  Proof.
    intros H. rewrite (get_set streq streq_spec). destruct (streq p q) eqn:E; [|reflexivity]. apply streq_spec in E. congruence.
  Qed.

  Lemma length_pos (data : list Z) : data <> [] -> Z.of_nat (length data) <> 0.
  Proof. destruct data; [easy|cbn [length]; lia]. Qed.

  (** The files of a run that codes the whole input. *)
  Lemma coding_run fs args data : (32 < fuel)%nat ->
    depth_ok uni args -> usable (z_model args) -> z_compress args = true -> z_infile args <> z_outfile args ->
    gd_get streq fs (z_infile args) = Some data -> data <> [] -> Z.of_nat (length data) < 2 ^ 32 ->
    exists header code out fs', four_bytes little (Z.of_nat (length data)) header /\ coded (z_model args) data code /\ holds code out /\
      gd_get streq fs' (z_outfile args) = Some (header ++ out) /\ only_file (z_outfile args) fs fs' /\
      run fs args = let (lines, r) := statistics fmt elapsed memory (Z.of_nat (length out)) (Z.of_nat (length data)) None in
        (fs', announcement (z_infile args) (Z.of_nat (length data)) :: bars (Z.of_nat (length data)) ++ lines, r).
  Proof.
    intros Hfu Hd Hm Hz Hio Hg Hne Hl.
    destruct (choose_used _ Hm) as (S & M & m & HU & HC).
    destruct (header_bytes little (Z.of_nat (length data)) ltac:(lia)) as (header & Hh & Hfour).
    destruct (used_coherent _ _ _ _ HU) as (Inv & HI & Hi).
    destruct (compress_total M Inv 32 m (bits_of_file data) ltac:(lia) HI Hi (file_bits_bits data)) as (code & Hcb & Hcode).
    exists header, code, (pack code). eexists. split; [exact Hfour|]. split; [exists S, M, m; split; assumption|].
    split; [apply (pack_holds (length code)); [lia|exact Hcb]|].
    rewrite (z_main_compress uni little fmt elapsed memory fuel fs args S (coder_of M) m None data header Hd HC Hz Hg Hh).
    cbv zeta. rewrite (unset_other fs (z_outfile args) (z_infile args)) by congruence. rewrite Hg.
    destruct (progress data Hne) as (Y & Q & Sh).
    rewrite (code_bytes_ok (coder_of M) fuel m _ code Q) by (rewrite Y, file_bits; now apply Hcode).
    rewrite Sh. destruct (statistics fmt elapsed memory (Z.of_nat (length (pack code))) (Z.of_nat (length data)) None) as [lines r].
    split; [|split; [|reflexivity]]; [apply set_twice_same|apply set_twice_other].
  Qed.

  Lemma compress_run fs args data : (32 < fuel)%nat ->
    depth_ok uni args -> usable (z_model args) -> z_compress args = true -> z_infile args <> z_outfile args ->
    gd_get streq fs (z_infile args) = Some data -> data <> [] -> Z.of_nat (length data) < 2 ^ 32 -> elapsed <> 0%R ->
    exists header code out fs', four_bytes little (Z.of_nat (length data)) header /\ coded (z_model args) data code /\ holds code out /\
      gd_get streq fs' (z_outfile args) = Some (header ++ out) /\ only_file (z_outfile args) fs fs' /\
      run fs args = (fs', announcement (z_infile args) (Z.of_nat (length data)) :: bars (Z.of_nat (length data)) ++
        report fmt elapsed memory (Z.of_nat (length data)) (Z.of_nat (length (header ++ out))), Ok tt).
  Proof.
    intros Hfu Hd Hm Hz Hio Hg Hne Hl He.
    destruct (coding_run fs args data Hfu Hd Hm Hz Hio Hg Hne Hl) as (header & code & out & fs' & H1 & H2 & H3 & H4 & H5 & H6).
    exists header, code, out, fs'. repeat (split; [assumption|]). rewrite H6, stats_ok by (assumption || now apply length_pos).
    rewrite app_length. replace (length header) with 4%nat.
    - replace (Z.of_nat (4 + length out)) with (Z.of_nat (length out) + 4) by lia. reflexivity.
    - destruct H1 as (a & b & c & d & _ & _ & ->). now destruct little.
  Qed.

  (** A clock that has not moved. *)
  Lemma clock_run fs args data : (32 < fuel)%nat ->
    depth_ok uni args -> usable (z_model args) -> z_compress args = true -> z_infile args <> z_outfile args ->
    gd_get streq fs (z_infile args) = Some data -> data <> [] -> Z.of_nat (length data) < 2 ^ 32 -> elapsed = 0%R ->
    exists header code out fs' screen, four_bytes little (Z.of_nat (length data)) header /\ coded (z_model args) data code /\ holds code out /\
      gd_get streq fs' (z_outfile args) = Some (header ++ out) /\ run fs args = (fs', screen, Err ZeroDivisionError).
  Proof.
    intros Hfu Hd Hm Hz Hio Hg Hne Hl He.
    destruct (coding_run fs args data Hfu Hd Hm Hz Hio Hg Hne Hl) as (header & code & out & fs' & H1 & H2 & H3 & H4 & H5 & H6).
    pose proof (length_pos data Hne) as Hn.
    assert (E : exists lines, statistics fmt elapsed memory (Z.of_nat (length out)) (Z.of_nat (length data)) None = (lines, Err ZeroDivisionError)).
    { unfold statistics. destruct (Z.eqb_spec (Z.of_nat (length data)) 0); [easy|]. destruct (Req_EM_T elapsed 0); [|easy]. eexists. reflexivity. }
    destruct E as (lines & E). exists header, code, out, fs'. eexists. repeat (split; [assumption|]). rewrite H6, E. reflexivity.
  Qed.

  (** ** Failures *)
  Lemma history_run fs args data :
    depth_ok uni args -> with_history (z_model args) -> z_compress args = true -> z_infile args <> z_outfile args ->
    gd_get streq fs (z_infile args) = Some data -> data <> [] -> Z.of_nat (length data) < 2 ^ 32 ->
    exists header fs', four_bytes little (Z.of_nat (length data)) header /\
      run fs args = (fs', [announcement (z_infile args) (Z.of_nat (length data))], Err TypeError) /\
      gd_get streq fs' (z_outfile args) = Some header /\ only_file (z_outfile args) fs fs'.
  Proof.
    intros Hd Hm Hz Hio Hg Hne Hl.
    destruct (header_bytes little (Z.of_nat (length data)) ltac:(lia)) as (header & Hh & Hfour).
    exists header. eexists. split; [exact Hfour|].
    rewrite (z_main_compress uni little fmt elapsed memory fuel fs args unit needs_history tt (Some 1) data header Hd
      (fun d => choose_with_history _ d Hm) Hz Hg Hh).
    cbv zeta. rewrite (unset_other fs (z_outfile args) (z_infile args)) by congruence. rewrite Hg.
    assert (E : code_bytes fuel needs_history tt (bytes_with_progress data (Z.of_nat (length data))) = ([], [], Err TypeError)).
    { unfold code_bytes, bytes_with_progress. destruct data as [|x data]; [easy|]. cbn [length].
      change (chunks (S (length data)) (x :: data)) with ((x :: firstn 1023 data) :: chunks (length data) (skipn 1024 (x :: data))).
      reflexivity. }
    rewrite E. rewrite app_nil_r. split; [reflexivity|]. split; [apply set_twice_same|apply set_twice_other].
  Qed.

  Lemma common_run fs args : depth_ok uni args -> common_history (z_model args) -> run fs args = (fs, [], Err AttributeError).
  Proof. intros (d & Hd) Hm. unfold z_main. now rewrite Hd, (choose_common _ _ Hm). Qed.

  Lemma unknown_run fs args : depth_ok uni args ->
    ~ usable (z_model args) -> ~ with_history (z_model args) -> ~ common_history (z_model args) -> run fs args = (fs, [], Err NameError).
  Proof. intros (d & Hd) H1 H2 H3. unfold z_main. now rewrite Hd, (choose_unknown _ _ H1 H2 H3). Qed.

  Lemma bad_depth fs args : int_of_str uni (z_depth args) = None -> run fs args = (fs, [], Err ValueError).
  Proof. intros H. unfold z_main. now rewrite H. Qed.

  Lemma uncompress_run fs args : z_compress args = false -> exists e, run fs args = (fs, [], Err e).
  Proof.
    intros Hz. unfold z_main. destruct (int_of_str uni (z_depth args)); [|now eexists].
    destruct (choose_model (z_model args) z) as [[S C m nodes]|]; [|now eexists]. rewrite Hz. now eexists.
  Qed.

  Lemma uncompress_key fs args : z_compress args = false -> depth_ok uni args -> usable (z_model args) \/ with_history (z_model args) ->
    run fs args = (fs, [], Err KeyError).
  Proof.
    intros Hz (d & Hd) [Hm|Hm]; unfold z_main; rewrite Hd.
    - destruct (choose_used _ Hm) as (S & M & m & _ & HC). now rewrite HC, Hz.
    - now rewrite (choose_with_history _ _ Hm), Hz.
  Qed.

  Lemma missing_run fs args : z_compress args = true -> gd_get streq fs (z_infile args) = None -> exists e, run fs args = (fs, [], Err e).
  Proof.
    intros Hz Hg. unfold z_main. destruct (int_of_str uni (z_depth args)); [|now eexists].
    destruct (choose_model (z_model args) z) as [[S C m nodes]|]; [|now eexists]. rewrite Hz, Hg. now eexists.
  Qed.

  Lemma huge_run fs args data :
    depth_ok uni args -> usable (z_model args) \/ with_history (z_model args) -> z_compress args = true ->
    gd_get streq fs (z_infile args) = Some data -> 2 ^ 32 <= Z.of_nat (length data) ->
    exists fs', run fs args = (fs', [announcement (z_infile args) (Z.of_nat (length data))], Err OverflowError) /\
      gd_get streq fs' (z_outfile args) = Some [].
  Proof.
    intros (d & Hd) Hm Hz Hg Hl.
    assert (HC : exists c, choose_model (z_model args) d = Ok c).
    { destruct Hm as [Hm|Hm]; [destruct (choose_used _ Hm) as (S & M & m & _ & HC); eexists; apply HC|].
      eexists. apply (choose_with_history _ _ Hm). }
    destruct HC as ([S C m nodes] & HC). unfold z_main. rewrite Hd, HC, Hz, Hg. unfold length_bytes.
    destruct (Z.ltb_spec (Z.of_nat (length data)) (2 ^ 32)); [lia|]. eexists. split; [reflexivity|].
    rewrite (get_set streq streq_spec). now rewrite (proj2 (streq_spec _ _) eq_refl).
  Qed.

  (** Nothing is read from an empty file: two bits of code. *)
  Lemma nothing_coded {S} (C : coder_model S) m n : code_bytes fuel C m (bytes_with_progress [] n) = ([], [64], Ok tt).
  Proof. reflexivity. Qed.

  Lemma chosen_any name : usable name \/ with_history name -> exists S (C : coder_model S) m nodes,
    forall d, choose_model name d = Ok (Chosen C m nodes).
  Proof.
    intros [Hm|Hm].
    - destruct (choose_used _ Hm) as (S & M & m & _ & HC). do 4 eexists. exact HC.
    - do 4 eexists. intros d. exact (choose_with_history _ d Hm).
  Qed.

  Lemma empty_run fs args :
    depth_ok uni args -> usable (z_model args) \/ with_history (z_model args) -> z_compress args = true ->
    gd_get streq fs (z_infile args) = Some [] ->
    exists fs' screen, run fs args = (fs', screen, Err ZeroDivisionError) /\ gd_get streq fs' (z_outfile args) = Some [0; 0; 0; 0; 64] /\
      only_file (z_outfile args) fs fs'.
  Proof.
    intros Hd Hm Hz Hg. destruct (chosen_any _ Hm) as (S & C & m & nodes & HC).
    assert (Hh : length_bytes little (Z.of_nat (length (@nil Z))) = Ok [0; 0; 0; 0]) by now destruct little.
    rewrite (z_main_compress uni little fmt elapsed memory fuel fs args S C m nodes [] _ Hd HC Hz Hg Hh). cbv zeta.
    assert (E : match gd_get streq (gd_set streq fs (z_outfile args) []) (z_infile args) with Some d => d | None => [] end = []).
    { rewrite (get_set streq streq_spec). destruct (streq (z_outfile args) (z_infile args)); [reflexivity|]. now rewrite Hg. }
    rewrite E, nothing_coded. cbn [statistics length Z.of_nat Z.eqb].
    do 2 eexists. split; [reflexivity|]. split; [apply set_twice_same|apply set_twice_other].
  Qed.

  Lemma same_file_run fs args data : elapsed <> 0%R ->
    depth_ok uni args -> usable (z_model args) \/ with_history (z_model args) -> z_compress args = true -> z_infile args = z_outfile args ->
    gd_get streq fs (z_infile args) = Some data -> data <> [] -> Z.of_nat (length data) < 2 ^ 32 ->
    exists header fs' screen, four_bytes little (Z.of_nat (length data)) header /\ run fs args = (fs', screen, Ok tt) /\
      gd_get streq fs' (z_infile args) = Some (header ++ [64]).
  Proof.
    intros He Hd Hm Hz Hio Hg Hne Hl. destruct (chosen_any _ Hm) as (S & C & m & nodes & HC).
    destruct (header_bytes little (Z.of_nat (length data)) ltac:(lia)) as (header & Hh & Hfour).
    rewrite (z_main_compress uni little fmt elapsed memory fuel fs args S C m nodes data _ Hd HC Hz Hg Hh). cbv zeta.
    rewrite Hio. rewrite (get_set streq streq_spec), (proj2 (streq_spec _ _) eq_refl), nothing_coded.
    pose proof (length_pos data Hne) as Hn.
    assert (E : exists lines, statistics fmt elapsed memory (Z.of_nat (length [64])) (Z.of_nat (length data)) nodes = (lines, Ok tt)).
    { unfold statistics. destruct (Z.eqb_spec (Z.of_nat (length data)) 0); [easy|]. destruct (Req_EM_T elapsed 0); [easy|]. eexists. reflexivity. }
    destruct E as (lines & E). rewrite E. do 3 eexists. split; [exact Hfour|]. split; [reflexivity|]. apply set_twice_same.
  Qed.
End runs.

(** ** Different files get different codes *)
Definition packed (S : Type) (M : model S) (m : S) : {S : Type & (model S * S)%type} := existT _ S (M, m).

Lemma used_one name S (M : model S) m S' (M' : model S') m' : used name S M m -> used name S' M' m' -> packed S M m = packed S' M' m'.
Proof.
  intros H H'.
  assert (D : forall name S (M : model S) m, used name S M m ->
    (name = lit "KT" /\ packed S M m = packed _ KT_model (kt_init [0; 1])) \/
    (name = lit "PTW" /\ packed S M m = packed _ (PTW_model KTB_model 0 ktb_init) (ptw_init 0 ktb_init)) \/
    (name = lit "FMN" /\ exists s, fmn_init (LogStore_class ktb) 10 ktb_init = Ok s /\
       packed S M m = packed _ (FMN_model KTB_model (LogStore_class ktb) 10) s)).
  { clear. intros name S M m H. destruct H as [| |s Hs]; [left|right; left|right; right]; (split; [reflexivity|]); try reflexivity.
    exists s. now split. }
  apply D in H. apply D in H'.
  destruct H as [[-> E]|[[-> E]|[-> (s & Hs & E)]]], H' as [[X E']|[[X E']|[X (s' & Hs' & E')]]]; try discriminate X.
  - now rewrite E, E'.
  - now rewrite E, E'.
  - rewrite Hs in Hs'. injection Hs' as <-. now rewrite E, E'.
Qed.

Lemma bytes_bits data data' : Forall is_byte data -> Forall is_byte data' -> bits_of_file data = bits_of_file data' -> data = data'.
Proof.
  intros H H' E. rewrite <- !file_bits in E. apply (f_equal pack) in E. rewrite !pack_unpack in E.
  revert data' H' E. induction H as [|x data Hx _ IH]; intros [|x' data'] H' E; try discriminate; [reflexivity|].
  cbn [map] in E. injection E as E1 E2. inversion_clear H' as [|? ? Hx' Hd']. f_equal; [|now apply IH].
  rewrite <- (proj2 (byte_reversed_twice x Hx)), E1. apply (byte_reversed_twice x' Hx').
Qed.

Lemma coded_lossless name data data' code code' bytes : Forall is_byte data -> Forall is_byte data' -> length data = length data' ->
  coded name data code -> coded name data' code' -> holds code bytes -> holds code' bytes -> data = data'.
Proof.
  intros Hb Hb' Hl (S & M & m & HU & HC) (S' & M' & m' & HU' & HC') Hh Hh'.
  specialize (HC 33%nat ltac:(lia)). specialize (HC' 33%nat ltac:(lia)).
  pose proof (used_one _ _ _ _ _ _ _ HU HU') as E.
  assert (HC2 : compress (coder_of M) 32 33 m (bits_of_file data') = Ok code').
  { rewrite <- HC'. change (compress (coder_of (fst (projT2 (packed S M m)))) 32 33 (snd (projT2 (packed S M m))) (bits_of_file data') =
      compress (coder_of (fst (projT2 (packed S' M' m')))) 32 33 (snd (projT2 (packed S' M' m'))) (bits_of_file data')). now rewrite E. }
  destruct (used_coherent _ _ _ _ HU) as (Inv & HI & Hi).
  apply bytes_bits; [assumption|assumption|].
  apply (lossless M Inv 32 33 m _ _ code code'); try assumption; try lia; try apply file_bits_bits.
  - rewrite !file_bits_length. lia.
  - apply (holds_same _ _ bytes); assumption.
Qed.

Lemma lossless_runs uni little fmt fuel fs1 args1 data1 e1 m1 fs2 args2 data2 e2 m2 fs1' sc1 fs2' sc2 : (32 < fuel)%nat ->
  z_compress args1 = true -> z_compress args2 = true -> z_model args1 = z_model args2 ->
  z_infile args1 <> z_outfile args1 -> z_infile args2 <> z_outfile args2 ->
  gd_get streq fs1 (z_infile args1) = Some data1 -> gd_get streq fs2 (z_infile args2) = Some data2 ->
  Forall is_byte data1 -> Forall is_byte data2 ->
  z_main uni little fmt e1 m1 fuel fs1 args1 = (fs1', sc1, Ok tt) -> z_main uni little fmt e2 m2 fuel fs2 args2 = (fs2', sc2, Ok tt) ->
  gd_get streq fs1' (z_outfile args1) = gd_get streq fs2' (z_outfile args2) -> data1 = data2.
Proof.
  intros Hfu Hz1 Hz2 Hmod Hio1 Hio2 Hg1 Hg2 Hb1 Hb2 R1 R2 Heq.
  assert (P : forall fs args data e m fs' sc, z_compress args = true -> z_infile args <> z_outfile args ->
    gd_get streq fs (z_infile args) = Some data -> z_main uni little fmt e m fuel fs args = (fs', sc, Ok tt) ->
    exists header code out, four_bytes little (Z.of_nat (length data)) header /\ coded (z_model args) data code /\ holds code out /\
      gd_get streq fs' (z_outfile args) = Some (header ++ out)).
  { clear - Hfu. intros fs args data e m fs' sc Hz Hio Hg R.
    destruct (int_of_str uni (z_depth args)) as [d|] eqn:Ed; [|unfold z_main in R; rewrite Ed in R; discriminate].
    assert (Hd : depth_ok uni args) by (now exists d).
    assert (Dec : {usable (z_model args)} + {~ usable (z_model args)}) by (apply in_dec, list_eq_dec, Z.eq_dec).
    assert (Dec2 : {with_history (z_model args)} + {~ with_history (z_model args)}) by (apply in_dec, list_eq_dec, Z.eq_dec).
    assert (Dec3 : {common_history (z_model args)} + {~ common_history (z_model args)}) by (apply in_dec, list_eq_dec, Z.eq_dec).
    destruct (Z.lt_ge_cases (Z.of_nat (length data)) (2 ^ 32)) as [Hl|Hl].
    - destruct Dec as [Hm|Hm].
      + destruct data as [|x data].
        * destruct (empty_run uni little fmt e m fuel fs args Hd (or_introl Hm) Hz Hg) as (f & s & E & _). rewrite R in E. discriminate.
        * destruct (coding_run uni little fmt e m fuel fs args (x :: data) Hfu Hd Hm Hz Hio Hg ltac:(discriminate) Hl)
            as (header & code & out & fs2 & H1 & H2 & H3 & H4 & _ & H6).
          rewrite R in H6. destruct (statistics _ _ _ _ _ _) in H6. injection H6 as <- _ _.
          exists header, code, out. repeat (split; [assumption|]). exact H4.
      + destruct Dec2 as [Hm2|Hm2].
        * destruct data as [|x data].
          { destruct (empty_run uni little fmt e m fuel fs args Hd (or_intror Hm2) Hz Hg) as (f & s & E & _). rewrite R in E. discriminate. }
          destruct (history_run uni little fmt e m fuel fs args (x :: data) Hd Hm2 Hz Hio Hg ltac:(discriminate) Hl) as (? & ? & _ & E & _).
          rewrite R in E. discriminate.
        * destruct Dec3 as [Hm3|Hm3].
          { rewrite (common_run uni little fmt e m fuel fs args Hd Hm3) in R. discriminate. }
          rewrite (unknown_run uni little fmt e m fuel fs args Hd Hm Hm2 Hm3) in R. discriminate.
    - exfalso. unfold z_main in R. rewrite Ed, Hz, Hg in R. destruct (choose_model (z_model args) d) as [[S C mm nodes]|]; [|discriminate].
      unfold length_bytes in R. destruct (Z.ltb_spec (Z.of_nat (length data)) (2 ^ 32)); [lia|discriminate]. }
  destruct (P _ _ _ _ _ _ _ Hz1 Hio1 Hg1 R1) as (h1 & c1 & o1 & F1 & C1 & O1 & G1).
  destruct (P _ _ _ _ _ _ _ Hz2 Hio2 Hg2 R2) as (h2 & c2 & o2 & F2 & C2 & O2 & G2).
  rewrite G1, G2 in Heq. injection Heq as Heq.
  assert (E : h1 = h2 /\ o1 = o2).
  { destruct F1 as (a & b & c & d & _ & _ & ->), F2 as (a' & b' & c' & d' & _ & _ & ->).
    destruct little; cbn [app] in Heq; injection Heq as -> -> -> -> ->; split; reflexivity. }
  destruct E as [<- <-]. pose proof (four_bytes_value _ _ _ _ F1 F2) as Hn. rewrite <- Hmod in C2.
  apply (coded_lossless (z_model args1) data1 data2 c1 c2 o1); try assumption. lia.
Qed.

(** ** The size *)
Lemma size_bound name data code out : coded name data code -> holds code out ->
  exists S (M : model S) m, used name S M m /\ forall fuel, (32 < fuel)%nat ->
    (INR (8 * length out) <= 9 + log_loss (quantised (coder_of M) 32 fuel (enc_init 32 m) (bits_of_file data)))%R.
Proof.
  intros (S & M & m & HU & HC) Hh. exists S, M, m. split; [exact HU|]. intros fuel Hfu.
  destruct (used_coherent _ _ _ _ HU) as (Inv & HI & Hi).
  destruct (code_length M Inv 32 fuel ltac:(lia) Hfu (coherent_at_most_one M Inv HI) m _ code Hi (file_bits_bits data) (HC fuel Hfu)) as (_ & _ & HL).
  destruct (holds_length _ _ Hh) as [H _]. assert (H' : (8 * length out <= length code + 7)%nat) by lia.
  apply le_INR in H'. rewrite plus_INR in H'. change (INR 7) with (IZR 7) in H' || replace (INR 7) with 7%R in H' by (cbn; lra). lra.
Qed.

(** ** The bar *)
Lemma bar_width frac : (0 <= frac <= 1)%R -> exists n p, 0 <= n <= 60 /\ 0 <= p <= 100 /\
  (IZR n <= 60 * frac < IZR n + 1)%R /\ (IZR p <= 100 * frac < IZR p + 1)%R /\
  exists inner, progress_bar frac = 13 :: 91 :: inner ++ 93 :: 32 :: 32 :: str_of_int p ++ [37] /\ length inner = 60%nat /\
    (forall i, (i < 60)%nat -> nth i inner 0 = if Z.of_nat i <? n then 61 else if Z.of_nat i =? n then 62 else 32).
Proof.
  intros Hf. exists (py_int (frac * 60)), (py_int (frac * 100)).
  assert (H1 : (0 <= frac * 60)%R) by lra. assert (H2 : (0 <= frac * 100)%R) by lra.
  pose proof (py_int_nonneg _ H1). pose proof (py_int_nonneg _ H2). pose proof (py_int_lower _ H1). pose proof (py_int_lower _ H2).
  assert (L1 : py_int (frac * 60) <= 60) by (apply py_int_le; lra). assert (L2 : py_int (frac * 100) <= 100) by (apply py_int_le; lra).
  split; [lia|]. split; [lia|]. split; [lra|]. split; [lra|].
  unfold progress_bar. set (n := py_int (frac * 60)) in *. eexists. split; [reflexivity|].
  destruct (Z.ltb_spec n 60) as [L|L].
  - split; [rewrite app_length, repeat_length; cbn [length]; rewrite repeat_length; lia|].
    intros i Hi. destruct (Z.ltb_spec (Z.of_nat i) n) as [L'|L'].
    + rewrite app_nth1 by (rewrite repeat_length; lia).
      assert (Hin : In (nth i (repeat 61 (Z.to_nat n)) 0) (repeat 61 (Z.to_nat n))) by (apply nth_In; rewrite repeat_length; lia).
      now apply repeat_spec in Hin.
    + rewrite app_nth2 by (rewrite repeat_length; lia). rewrite repeat_length.
      destruct (Z.eqb_spec (Z.of_nat i) n) as [E|E].
      * replace (i - Z.to_nat n)%nat with 0%nat by lia. reflexivity.
      * replace (i - Z.to_nat n)%nat with (Datatypes.S (i - Z.to_nat n - 1)) by lia. cbn [nth].
        assert (Hin : In (nth (i - Z.to_nat n - 1) (repeat sp (Z.to_nat (60 - n - 1))) 0) (repeat sp (Z.to_nat (60 - n - 1))))
          by (apply nth_In; rewrite repeat_length; lia).
        now apply repeat_spec in Hin.
  - replace n with 60 by lia. split; [reflexivity|]. intros i Hi. destruct (Z.ltb_spec (Z.of_nat i) 60); [|lia].
    assert (Hin : In (nth i (repeat 61 (Z.to_nat 60) ++ []) 0) (repeat 61 (Z.to_nat 60))) by (rewrite app_nil_r; apply nth_In; rewrite repeat_length; lia).
    now apply repeat_spec in Hin.
Qed.

(** The last bar says that all is done. *)
Lemma last_bar n : 0 < n -> exists pre, bars n = pre ++ [13 :: 91 :: repeat 61 60 ++ lit "]  100%"].
Proof.
  intros Hn. unfold bars. set (k := Z.to_nat ((n + 1023) / 1024)).
  assert (1 <= (n + 1023) / 1024) by (apply Z.div_le_lower_bound; lia).
  assert (Hk : k = Datatypes.S (k - 1)) by (unfold k; lia). rewrite Hk. rewrite seq_S, map_app. eexists. f_equal. cbn [map Nat.add].
  assert (D : done_after n (Z.of_nat (k - 1)) = n).
  { unfold done_after. apply Z.min_l. replace (Z.of_nat (k - 1) + 1) with ((n + 1023) / 1024) by (unfold k; lia).
    pose proof (Z.div_mod (n + 1023) 1024 ltac:(lia)). pose proof (Z.mod_pos_bound (n + 1023) 1024 ltac:(lia)). lia. }
  rewrite D, !Z.div_mul by lia. reflexivity.
Qed.

(** ** A file *)
Definition a_file : list (pystr * list Z) := [(lit "novel", [72; 101; 108; 108; 111])].
Definition a_call (model : pystr) : z_args := ZArgs true (lit "novel") (lit "novel.z") model (lit "48").

Lemma call_ex uni model : depth_ok uni (a_call model) /\ z_infile (a_call model) <> z_outfile (a_call model) /\
  gd_get streq a_file (z_infile (a_call model)) = Some [72; 101; 108; 108; 111] /\ Forall is_byte [72; 101; 108; 108; 111].
Proof.
  split; [exists 48; reflexivity|]. split; [discriminate|]. split; [reflexivity|].
  repeat apply Forall_cons; try apply Forall_nil; unfold is_byte; lia.
Qed.
