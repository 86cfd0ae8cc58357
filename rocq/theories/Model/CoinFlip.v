(** environments.py:150-347: CoinFlip. *)
From Coq Require Export Reals.
From Verif Require Export Model.Py.
Open Scope Z_scope.

Section coin.
  (** numpy's global generator: [random.seed(s)], and [random.random()] with the state after it *)
  Context {Seed G : Type} (seeded : Seed -> G) (random : G -> R * G).

  (** the attributes that never change (environments.py:224-239); a single probability is a list of
      one (listify) *)
  Record Coin := {
    cf_probabilities : list R;
    cf_seed : Seed;
    cf_changepoints : option (list Z);
  }.

  (** the attributes that do; a generator is the list of what it has yet to yield *)
  Record Flip := {
    fl_timestep : Z;
    fl_num_changes : Z;
    fl_next_change : Z;
    fl_context : option (list (Z * Z));
    fl_prob : option R;
  }.

  (** environments.py:267-272 *)
  Definition reset : Flip :=
    {| fl_timestep := -1; fl_num_changes := -1; fl_next_change := 0;
       fl_context := None; fl_prob := None |}.

  (** [enumerate(l)] from [i] *)
  Fixpoint enumerate (i : Z) (l : list Z) : list (Z * Z) :=
    match l with [] => [] | c :: l' => (i, c) :: enumerate (i + 1) l' end.

  (** environments.py:178-186 *)
  Definition iter_changes (c : Coin) : list (Z * Z) :=
    match cf_changepoints c with
    | None => [(0, -1)]
    | Some cps => enumerate 0 cps ++ [(Z.of_nat (length cps), -1)]
    end.

  (** environments.py:300-325 *)
  Definition update_probability (c : Coin) (f : Flip) : result Flip :=
    let f := if fl_timestep f <? 0
             then {| fl_timestep := fl_timestep f; fl_num_changes := fl_num_changes f;
                     fl_next_change := -1; fl_context := Some (iter_changes c);
                     fl_prob := fl_prob f |}
             else f in
    if fl_timestep f =? fl_next_change f then
      match fl_context f with
      | None => Err AttributeError
      | Some [] => Err StopIteration
      | Some ((num_changes, next_change) :: context) =>
          let k := Z.of_nat (length (cf_probabilities c)) in
          if k =? 0 then Err ZeroDivisionError
          else match nth_error (cf_probabilities c) (Z.to_nat (num_changes mod k)) with
               | Some p => Ok {| fl_timestep := fl_timestep f; fl_num_changes := num_changes;
                                 fl_next_change := next_change; fl_context := Some context;
                                 fl_prob := Some p |}
               | None => Err IndexError
               end
      end
    else Ok f.

  (** environments.py:242-265 *)
  Definition enter (c : Coin) : result (Flip * G) :=
    let g := seeded (cf_seed c) in
    do f <- update_probability c reset; Ok (f, g).

  (** environments.py:274-276 *)
  Definition exit_ (f : Flip) : Flip :=
    {| fl_timestep := fl_timestep f; fl_num_changes := fl_num_changes f;
       fl_next_change := fl_next_change f; fl_context := None; fl_prob := None |}.

  (** environments.py:157-176 for a number; comparing with None raises TypeError, also for the
      Series made of it *)
  Definition parse_prob (data : R) (prob : option R) : result Z :=
    match prob with
    | Some p => Ok (if Rle_dec p data then 1 else 0)
    | None => Err TypeError
    end.

  (** environments.py:278-298 *)
  Definition call (c : Coin) (f : Flip) (g : G) : result (Z * Flip * G) :=
    do (f, g) <- (if fl_timestep f <? 0 then enter c else Ok (f, g));
    do f <- update_probability c
              {| fl_timestep := fl_timestep f + 1; fl_num_changes := fl_num_changes f;
                 fl_next_change := fl_next_change f; fl_context := fl_context f;
                 fl_prob := fl_prob f |};
    let (u, g) := random g in
    do v <- parse_prob u (fl_prob f);
    Ok (v, f, g).

  (** [[flipper() for _ in range(n)]] *)
  Fixpoint calls (c : Coin) (n : nat) (f : Flip) (g : G) : result (list Z * Flip * G) :=
    match n with
    | O => Ok ([], f, g)
    | S n' =>
        do (v, f, g) <- call c f g;
        do (vs, f, g) <- calls c n' f g;
        Ok (v :: vs, f, g)
    end.

  (** environments.py:327-343; [terminal] below zero gives no data *)
  Definition get_data (c : Coin) (terminal : Z) : result (list Z * Flip * G) :=
    do (f, g) <- enter c;
    do (vs, f, g) <- calls c (Z.to_nat terminal) f g;
    Ok (vs, exit_ f, g).
End coin.
Arguments Coin : clear implicits.
