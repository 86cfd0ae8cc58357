(** learners.py:206-293: the texts that describe a PTW. *)
From Verif Require Export Model.LearnersPTW Model.PyStr Model.Params.
Open Scope Z_scope.

Section text.
  Context {S : Type}.
  (** [self.Model.__name__] *)
  Variable name : pystr.
  Notation lptw := (lptw (S := S)).

  (** learners.py:206-209 *)
  Definition ptw_repr (s : lptw) : pystr :=
    lit "<PTW^" ++ str_of_int (Z.of_nat (lw_depth s)) ++ lit "_" ++ name ++ lit "(0:" ++ str_of_int (lw_steps s - 1) ++ lit ")>".
  (** learners.py:211-234; [1<<d] of a negative [d] raises ValueError *)
  Definition to_string (s : lptw) (depth t : option Z) : result pystr :=
    let depth := match depth with None => Z.of_nat (lw_depth s) | Some d => d end in
    let t := match t with None => lw_steps s - 1 | Some t => t end in
    do start <- (if t <? 0 then Ok 0 else if depth <? 0 then Err ValueError else Ok (binary_boundary t depth));
    Ok (lit "PTW^" ++ str_of_int depth ++ lit "(" ++ str_of_int start ++ lit ":" ++ str_of_int t ++ lit ")").
  (** learners.py:256-259, the levels listed: [range(depth-1, -1, -1)] *)
  Fixpoint done_levels (completed : list R) (n : nat) : result (list nat) :=
    match n with
    | O => Ok []
    | Datatypes.S i =>
        do c <- py_get completed (Z.of_nat i);
        do rest <- done_levels completed i;
        Ok (if Req_EM_T c 0 then rest else i :: rest)
    end.
  Definition level_text (i : nat) : pystr := lit "PTW^" ++ str_of_int (Z.of_nat i).
  (** learners.py:236-259 *)
  Definition get_child_string (s : lptw) : result pystr :=
    if lw_steps s =? max_steps s then Ok (level_text (lw_depth s)) else
    do ls <- done_levels (lw_completed s) (lw_depth s);
    Ok (join (lit " ") (map level_text ls)).
  (** learners.py:261-281 *)
  Definition model_text (s : lptw) (k : Z) : pystr :=
    name ++ lit "(" ++ str_of_int k ++ lit ":" ++ str_of_int (lw_steps s - 1) ++ lit ")".
  Definition get_model_string (s : lptw) : pystr :=
    join (lit " ") (map (model_text s) (sort Z.leb (map fst (lw_models s)))).
  (** learners.py:284-289; [deepest] is 0 *)
  Definition at_deepest (s : lptw) : bool := at_partition_start (lw_steps s) (0 + 1).
End text.
