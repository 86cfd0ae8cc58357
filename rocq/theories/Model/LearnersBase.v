(** learners.py:11-57 and 497-526: what all models of learners.py inherit, and SAD. *)
From Verif Require Export Model.LearnersPTW Model.PyStr Model.PyDict.
Open Scope R_scope.

(** The names bound in learners.py outside functions: its imports, the public names of helpers.py
    (learners.py:8, helpers.py:4-11 and its functions), log_0_5 and the classes. *)
Definition learners_names : list pystr := map lit
  ["abc"; "np"; "exp"; "log"; "functools"; "Series"; "deque";
   "os"; "re"; "ast"; "itertools"; "pd"; "suppress"; "defaultdict";
   "binary_boundary"; "at_partition_start"; "mscb"; "log_sum_exp"; "unique_dict_sets";
   "confirm_membership"; "listify"; "clean_string"; "de_string"; "dummy"; "de_number";
   "format_param"; "format_join"; "format_protocol"; "split_params"; "get_regions";
   "get_outer_boundaries"; "get_counts"; "approx"; "all_approx"; "dicts_exact_match";
   "is_empty"; "get_changepoints"; "get_colours";
   "log_0_5"; "Model"; "ModelStore"; "LogStore"; "PTW"; "Averager"; "KT"; "SAD"]%string.

(** Looking up a name that is no local variable (none of them is a builtin). *)
Definition global (x : pystr) : result unit :=
  if existsb (streq x) learners_names then Ok tt else Err NameError.

Section base.
  Context {S : Type}.
  (** [log_prob], which each class keeps, and its [update] and [log_predict] *)
  Variables (log_prob : S -> R) (M : model S).

  (** learners.py:42-43 *)
  Definition lm_predict (s : S) (data : Z) : result R :=
    do l <- m_logp M s data []; Ok (exp l).

  (** learners.py:45-50 *)
  Definition total_loss (s : S) : R := - log_prob s.

  (** learners.py:15-18 *)
  Fixpoint lm_updates (me : S) (seq : list Z) : result S :=
    match seq with
    | [] => Ok me
    | x :: seq' => do (me', _) <- m_update M me x [] 1; lm_updates me' seq'
    end.

  (** learners.py:13-19 of a list of symbols, which listify returns as it is; [make] is
      the new object. *)
  Definition from_sequence (make : result S) (seq : list Z) : result S :=
    do me <- make;
    do _ <- global (lit "helpers");
    lm_updates me seq.
End base.

(** learners.py:449-451: KT.reset; the alphabet, which never changes, is not part of [lkt]. *)
Definition lkt_reset (alphabet : list Z) (s : lkt) : lkt :=
  LKT (fold_left (fun d a => dict_set d a (1 / INR (length alphabet))) alphabet []) 0 0.

(** learners.py:52-57, which PTW inherits *)
Definition lptw_reset {S} (s : lptw (S := S)) : lptw (S := S) :=
  LPTW (lw_depth s) 0 0 (lw_models s) (lw_completed s).

(** learners.py:497-526: SAD. An object is the dictionary of its attributes. *)
Inductive sadval := SNum (n : Z) | SDict (d : dict Z).
Definition lsad := list (pystr * sadval).

(** [self.x] *)
Definition attr (self : lsad) (x : pystr) : result sadval :=
  match gd_get streq self x with Some v => Ok v | None => Err AttributeError end.

Definition as_num (v : sadval) : result Z := match v with SNum n => Ok n | SDict _ => Err TypeError end.
Definition as_dict (v : sadval) : result (dict Z) := match v with SDict d => Ok d | SNum _ => Err TypeError end.

(** learners.py:504-507 *)
Definition lsad_init (n : Z) : lsad :=
  [(lit "n", SNum n); (lit "counters", SDict []); (lit "sum_counts", SNum 0)].

(** [math.log(x)]: [math] is looked up before the argument is evaluated. *)
Definition math_log (x : result R) : result R :=
  do _ <- global (lit "math"); do v <- x; py_log v.

(** learners.py:517-526 *)
Definition lsad_log_predict (self : lsad) (symbol : Z) : result R :=
  do c <- attr self (lit "counts"); do counts <- as_dict c;
  do t <- attr self (lit "sum_counts"); do sum_counts <- as_num t;
  let m := Z.min (Z.of_nat (length counts)) sum_counts in
  do beta <- (if (sum_counts >? 0)%Z
              then do l <- math_log (py_div (IZR (sum_counts + 1)) (IZR m)); py_div (IZR m) (2 * l)
              else Ok 1);
  match dict_get counts symbol with
  | Some k => math_log (py_div (IZR k) (IZR sum_counts + beta))
  | None => math_log (do nv <- attr self (lit "n"); do n <- as_num nv;
                      py_div beta (IZR (n - Z.of_nat (length counts)) * (IZR sum_counts + beta)))
  end.

(** learners.py:509-515: the symbol is called [symb], the body says [sym]. *)
Definition lsad_update (self : lsad) (symb : Z) : result (lsad * R) :=
  do _ <- global (lit "sym");
  do lp <- lsad_log_predict self symb;
  do c <- attr self (lit "counts"); do counts <- as_dict c;
  do t <- attr self (lit "sum_counts"); do sum_counts <- as_num t;
  let k := match dict_get counts symb with Some k => k | None => 0%Z end in
  let self1 := gd_set streq self (lit "counts") (SDict (dict_set counts symb (k + 1)%Z)) in
  Ok (gd_set streq self1 (lit "sum_counts") (SNum (sum_counts + 1)), lp).
