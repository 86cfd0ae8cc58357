(** Examples and failures of selection. *)
From Verif Require Import Proofs.DictFacts Proofs.PyFacts Proofs.ParamsFacts Proofs.StrFacts Proofs.StructuresFacts Proofs.StructuresRead
  Proofs.StructuresTop Proofs.StructuresNeg Proofs.RecordsFacts Proofs.RecordsBuild Proofs.NestedNeg Spec.RecordsSpec.
Open Scope Z_scope.

(** [==] without floats *)
Fixpoint simple_eq (v w : pval) {struct v} : bool :=
  match v, w with
  | VNone, VNone => true
  | VBool b, VBool c => Bool.eqb b c
  | VInt n, VInt m => n =? m
  | VInt n, VBool c => n =? (if c then 1 else 0)
  | VBool b, VInt m => (if b then 1 else 0) =? m
  | VStr s, VStr t => streq s t
  | VOther s, VOther t => streq s t
  | VList l, VList m =>
      (fix go (l m : list pval) : bool :=
         match l, m with [], [] => true | x :: l', y :: m' => simple_eq x y && go l' m' | _, _ => false end) l m
  | VDict d, VDict e =>
      (fix go (d e : list (pystr * pval)) : bool :=
         match d, e with
         | [], [] => true
         | (k, x) :: d', (j, y) :: e' => streq k j && simple_eq x y && go d' e'
         | _, _ => false
         end) d e
  | _, _ => false
  end.
Lemma simple_compares : compares simple_eq.
Proof.
  split.
  - fix IH 1. intros [|b|n|s|s|l|d]; cbn [simple_eq].
    + reflexivity.
    + apply Bool.eqb_reflx.
    + apply Z.eqb_refl.
    + apply streq_refl.
    + apply streq_refl.
    + induction l as [|x l IHl]; [reflexivity|]. rewrite (IH x). exact IHl.
    + induction d as [|[k x] d IHd]; [reflexivity|]. rewrite streq_refl, (IH x). exact IHd.
  - intros s v. destruct v; cbn [simple_eq]; try (split; [discriminate|intros E; discriminate E]).
    rewrite streq_spec. split; congruence.
Qed.

Definition run_fields := [required (positional (unnamed (named "exp" CStr))); named "seed" CInt; named "cuts" CList].
Definition my_run := [attr "exp" (VStr (lit "coin")); attr "seed" (VInt 5); attr "cuts" (VList [VInt 1; VInt 2])].

Lemma run_unique : forall f g, In f run_fields -> In g run_fields -> f_name f = f_name g -> f = g.
Proof.
  intros f g Hf Hg E. cbn in Hf, Hg. repeat destruct Hf as [<-|Hf]; try destruct Hf; repeat destruct Hg as [<-|Hg]; try destruct Hg;
    try reflexivity; discriminate E.
Qed.

(** by value, by text, and by other keys *)
Lemma selected : answerable run_fields my_run [(lit "seed", VList [VInt 4; VInt 5]); (lit "exp", VStr (lit "coin"))] /\
  matches simple_eq run_fields my_run [] [(lit "seed", VList [VInt 4; VInt 5]); (lit "exp", VStr (lit "coin"))] = Ok true /\
  matches simple_eq run_fields my_run [] [(lit "seed", VStr (lit "seed-5"))] = Ok true /\
  matches simple_eq run_fields my_run [(lit "seed", VStr (lit "seed-5"))] [] = Ok false /\
  matches simple_eq run_fields my_run [] [(lit "other", VInt 5)] = Ok false.
Proof.
  split; [|repeat apply conj; vm_compute; reflexivity].
  intros k x H. destruct H as [E|[E|[]]]; injection E as <- <-; split.
  - eexists. now left.
  - intros v [H|[H _]]; vm_compute in H; [|discriminate]. injection H as <-. eexists. apply (parameter_text _ _ _ _ run_unique). vm_compute. reflexivity.
  - eexists. right. split; [reflexivity|exact I].
  - intros v [H|[H _]]; vm_compute in H; [|discriminate]. injection H as <-. eexists. apply (parameter_text _ _ _ _ run_unique). vm_compute. reflexivity.
Qed.

(** a list is not found by itself, and nothing is left out by its value or its text without name *)
Lemma own_list : matches simple_eq run_fields my_run [] [(lit "cuts", VList [VInt 1; VInt 2])] = Ok false /\
  matches simple_eq run_fields my_run [] [(lit "cuts", VList [VList [VInt 1; VInt 2]])] = Ok true.
Proof. split; vm_compute; reflexivity. Qed.
Lemma own_value : matches simple_eq run_fields my_run [] [(lit "seed", VInt 5)] = Ok true /\
  matches simple_eq run_fields my_run [(lit "seed", VInt 5)] [] = Ok true /\
  matches simple_eq run_fields my_run [(lit "seed", VStr (lit "5"))] [] = Ok true.
Proof. repeat apply conj; vm_compute; reflexivity. Qed.

Lemma rebuilt_ex : exists kw a r, construct simple_eval (fun _ => None) (fun _ => false) (fun _ => None) (fun _ => false) (fun _ => None)
    (fun _ => []) (fun _ => false) run_fields [lit "base_dir"] kw = Ok a /\ items run_fields a = Ok r /\ floats (fun _ => false) (fun _ => None) /\
  (forall f, In f run_fields -> sane_nargs f) /\ NoDup (map f_name run_fields) /\
  (forall n, In n [lit "base_dir"] -> ~ In n (map f_name run_fields)).
Proof.
  exists [(lit "exp", VStr (lit "coin")); (lit "seed", VStr (lit "5")); (lit "cuts", VStr (lit "1-2")); (lit "base_dir", VStr (lit "/data"))].
  eexists. eexists. split; [vm_compute; reflexivity|]. split; [vm_compute; reflexivity|]. split; [discriminate|]. split; [|split].
  - intros f Hf k. cbn in Hf. repeat destruct Hf as [<-|Hf]; try destruct Hf; discriminate.
  - cbn. repeat constructor; cbn; intuition discriminate.
  - intros n [<-|[]]. cbn. intuition discriminate.
Qed.

(** the number of values shrinks each time if nargs is negative *)
Lemma negative_nargs : let f := Field (lit "xs") CAny false true false false None None None (Some (NNum (-1))) in
  let make := construct simple_eval (fun _ => None) (fun _ => false) (fun _ => None) (fun _ => false) (fun _ => None) (fun _ => []) (fun _ => false) in
  make [f] [] [(lit "xs", VList [VInt 1; VInt 2; VInt 3])] = Ok [attr "xs" (VList [VInt 1; VInt 2])] /\
  items [f] [attr "xs" (VList [VInt 1; VInt 2])] = Ok [(lit "xs", VList [VInt 1; VInt 2])] /\
  make [f] [] [(lit "xs", VList [VInt 1; VInt 2])] = Ok [attr "xs" (VList [VInt 1])].
Proof. repeat apply conj; vm_compute; reflexivity. Qed.

(** a field that is not set, and a class with a class inside, have no record *)
Lemma unset_ex : let make := construct simple_eval (fun _ => None) (fun _ => false) (fun _ => None) (fun _ => false) (fun _ => None) (fun _ => []) (fun _ => false) in
  exists a, make run_fields [lit "base_dir"] [(lit "exp", VStr (lit "coin")); (lit "base_dir", VStr (lit "/data"))] = Ok a /\
    lacks a (lit "seed") /\ get_flat_record run_fields false a = Err AttributeError /\ items run_fields a = Err AttributeError.
Proof. eexists. repeat apply conj; vm_compute; reflexivity. Qed.
Lemma nested_ex : exists base, base_params exp_class = Ok base /\
  exists n req k p t ms inh f, In (MStruct n req k p t (Some (ms, inh))) exp_class /\ In (MField f) ms /\ f_transient f = false /\
    gd_get streq my_exp (f_name f) = None /\ get_flat_record base false (own_attrs my_exp) = Err AttributeError.
Proof.
  eexists. split; [vm_compute; reflexivity|]. unfold exp_class, meant.
  do 8 eexists. split; [right; left; reflexivity|]. split; [left; reflexivity|]. repeat apply conj; vm_compute; reflexivity.
Qed.
(** the directory of an instance is not in its record *)
Lemma moved : let make := construct simple_eval (fun _ => None) (fun _ => false) (fun _ => None) (fun _ => false) (fun _ => None) (fun _ => []) (fun _ => false) in
  exists a r b, make run_fields [lit "base_dir"]
      [(lit "exp", VStr (lit "coin")); (lit "seed", VInt 5); (lit "cuts", VList [VInt 1]); (lit "base_dir", VStr (lit "/data"))] = Ok a /\
    get_flat_record run_fields false a = Ok r /\ make run_fields [lit "base_dir"] r = Ok b /\
    has a (lit "base_dir") (VStr (lit "/data")) /\ gd_get streq b (lit "base_dir") <> gd_get streq a (lit "base_dir").
Proof.
  do 3 eexists. split; [vm_compute; reflexivity|]. split; [vm_compute; reflexivity|]. split; [vm_compute; reflexivity|].
  split; [left; vm_compute; reflexivity|]. vm_compute. discriminate.
Qed.
Lemma texts_ex : NoDup (map f_name run_fields) /\
  get_flat_record run_fields true my_run = Ok [(lit "exp", VStr (lit "coin")); (lit "seed", VInt 5); (lit "cuts", VStr (lit "1-2"))] /\
  get_flat_record run_fields false my_run = Ok [(lit "exp", VStr (lit "coin")); (lit "seed", VInt 5); (lit "cuts", VList [VInt 1; VInt 2])].
Proof. split; [cbn; repeat constructor; cbn; intuition discriminate|]. split; vm_compute; reflexivity. Qed.
