(** C89: the texts that describe a PTW of learners.py. *)
From Verif Require Import Spec.PTWTextSpec Proofs.ProbFacts Proofs.LearnersKTFacts Proofs.PTWTextFacts.
Open Scope Z_scope.

(** get_child_string lists the blocks of decreasing sizes, powers of two, that make up all steps, if no prediction was certain, *)
Theorem C89_children_partial : forall {S} (M : model S) fresh A Inv D evs, steps M A (fun h => h = []) (fun w => w = 1%R) Inv -> Inv fresh -> uncertain M A Inv ->
  Forall (ok_event A (fun h => h = []) (fun w => w = 1%R)) evs -> (length evs <= 2 ^ D)%nat ->
  exists s l ls, run (LPTW_model M fresh) (lptw_init fresh D) evs = Ok (s, l) /\ blocks ls (Z.of_nat (length evs)) /\
    get_child_string s = Ok (join (lit " ") (map (fun i => lit "PTW^" ++ str_of_int (Z.of_nat i)) ls)).
Proof. exact @children. Qed.
Print Assumptions C89_children_partial.

(** and there is only one such list. *)
Theorem C89_blocks : forall ls ls' n, blocks ls n -> blocks ls' n -> ls = ls'.
Proof. exact blocks_unique. Qed.
Print Assumptions C89_blocks.

(** get_model_string lists the models that start with these blocks. *)
Theorem C89_models : forall {S} (M : model S) fresh A Inv D name evs, steps M A (fun h => h = []) (fun w => w = 1%R) Inv -> Inv fresh ->
  Forall (ok_event A (fun h => h = []) (fun w => w = 1%R)) evs -> (0 < length evs <= 2 ^ D)%nat ->
  exists s l ls, run (LPTW_model M fresh) (lptw_init fresh D) evs = Ok (s, l) /\ blocks ls (Z.of_nat (length evs)) /\
    get_model_string name s =
      join (lit " ") (map (fun k => name ++ lit "(" ++ str_of_int k ++ lit ":" ++ str_of_int (Z.of_nat (length evs) - 1) ++ lit ")") (starts 0 ls)).
Proof. exact @models. Qed.
Print Assumptions C89_models.
Theorem C89_models_first : forall {S} (fresh : S) name D, get_model_string name (lptw_init fresh D) = name ++ lit "(0:-1)".
Proof. exact @models_first. Qed.
Print Assumptions C89_models_first.

(** KT with two symbols or more is never certain. *)
Theorem C89_kt : forall A, (2 <= length A)%nat -> uncertain LKT_model A (lkt_inv A).
Proof. exact kt_uncertain. Qed.
Print Assumptions C89_kt.

Example C89_ex : let A := [0; 1] in steps LKT_model A (fun h => h = []) (fun w => w = 1%R) (lkt_inv A) /\ lkt_inv A (lkt_init A) /\
  Forall (ok_event A (fun h => h = []) (fun w => w = 1%R)) [Event 0 [] 1%R; Event 1 [] 1%R; Event 0 [] 1%R] /\ blocks [1; 0]%nat 3 /\ starts 0 [1; 0]%nat = [0; 2] /\
  join (lit " ") (map (fun i => lit "PTW^" ++ str_of_int (Z.of_nat i)) [1; 0]%nat) = lit "PTW^1 PTW^0" /\ starts 0 [2; 1; 0]%nat = [0; 4; 6].
Proof.
  repeat apply conj; try (vm_compute; reflexivity).
  - apply lkt_steps.
  - apply lkt_inv_init; [repeat constructor; cbn; intuition discriminate|discriminate].
  - repeat constructor; cbn; tauto.
  - repeat constructor.
Qed.

(** to_string names the block of that depth around the time, *)
Theorem C89_interval : forall {S} (s : lptw (S := S)) d t, 0 <= d -> 0 <= t -> exists start, to_string s (Some d) (Some t) =
    Ok (lit "PTW^" ++ str_of_int d ++ lit "(" ++ str_of_int start ++ lit ":" ++ str_of_int t ++ lit ")") /\
  (2 ^ d | start) /\ start <= t < start + 2 ^ d.
Proof. exact @interval. Qed.
Print Assumptions C89_interval.

Example C89_interval_ex : to_string (lptw_init (lkt_init [0; 1]) 12) (Some 5) (Some 100) = Ok (lit "PTW^5(96:100)").
Proof. vm_compute. reflexivity. Qed.

(** and by default all that was seen. *)
Theorem C89_whole : forall {S} (M : model S) fresh A Inv D evs, steps M A (fun h => h = []) (fun w => w = 1%R) Inv -> Inv fresh ->
  Forall (ok_event A (fun h => h = []) (fun w => w = 1%R)) evs -> (length evs <= 2 ^ D)%nat ->
  exists s l, run (LPTW_model M fresh) (lptw_init fresh D) evs = Ok (s, l) /\
    to_string s None None = Ok (lit "PTW^" ++ str_of_int (Z.of_nat D) ++ lit "(0:" ++ str_of_int (Z.of_nat (length evs) - 1) ++ lit ")").
Proof. exact @whole. Qed.
Print Assumptions C89_whole.

(** Blocks that were certain are not listed: their probability is the mark for blocks that are not there. *)
Theorem C89_certain_refuted : exists s l, run (LPTW_model LKT_model (lkt_init [0])) (lptw_init (lkt_init [0]) 1) [Event 0 [] 1%R] = Ok (s, l) /\ get_child_string s = Ok [].
Proof. exact certain. Qed.
Print Assumptions C89_certain_refuted.
