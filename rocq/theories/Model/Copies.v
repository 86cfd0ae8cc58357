(** model.py:81-228 and 838-885 with objects: KT, KTBinary, SAD, Averager, Factored and Dumb, the dictionaries and lists they hold,
    and their copies. An object holds references to others, which several objects may share. *)
From Verif Require Export Model.KT Model.Averager Model.Factored.
Open Scope R_scope.

Definition ptr := nat.

(** What is in memory: dictionaries and lists, and objects with their attributes. *)
Inductive cell :=
| DCounts (d : dict R)                      (* counts of KT and SAD *)
| LCounts (l : list R)                      (* counts of KTBinary *)
| DModels (d : list (ptr * R))              (* models of Averager, keyed by the object *)
| LModels (l : list ptr)                    (* factors of Factored *)
| OKT (counts : ptr) (sum_counts : R)
| OKTB (counts : ptr)
| OSAD (n : Z) (counts : ptr) (sum_counts : R)
| OAvg (models : ptr) (log_prob : R)
| OFac (factors : ptr)
| ODumb.

Definition heap := list cell.

(** A method called on something else than an object is an AttributeError. The theorems' programs do not do that. *)
Definition hget (h : heap) (p : ptr) : result cell := match nth_error h p with Some c => Ok c | None => Err AttributeError end.
Definition hput (h : heap) (p : ptr) (c : cell) : heap := list_set h p c.
Definition halloc (h : heap) (c : cell) : heap * ptr := (h ++ [c], length h).

Definition get_counts (h : heap) (p : ptr) : result (dict R) := do c <- hget h p; match c with DCounts d => Ok d | _ => Err AttributeError end.
Definition get_list (h : heap) (p : ptr) : result (list R) := do c <- hget h p; match c with LCounts l => Ok l | _ => Err AttributeError end.
Definition get_models (h : heap) (p : ptr) : result (list (ptr * R)) := do c <- hget h p; match c with DModels d => Ok d | _ => Err AttributeError end.
Definition get_factors (h : heap) (p : ptr) : result (list ptr) := do c <- hget h p; match c with LModels l => Ok l | _ => Err AttributeError end.

(** [d[m]] and [d[m] = x] on the dictionary keyed by objects *)
Fixpoint models_get (d : list (ptr * R)) (m : ptr) : result R :=
  match d with [] => Err KeyError | (k, x) :: d' => if Nat.eqb k m then Ok x else models_get d' m end.
Fixpoint models_set (d : list (ptr * R)) (m : ptr) (x : R) : list (ptr * R) :=
  match d with [] => [(m, x)] | (k, y) :: d' => if Nat.eqb k m then (k, x) :: d' else (k, y) :: models_set d' m x end.

(** model.py:91-98 with the default counts *)
Definition new_kt (h : heap) (alphabet : list Z) : heap * ptr :=
  let s := kt_init alphabet in
  let '(h, d) := halloc h (DCounts (kt_counts s)) in halloc h (OKT d (kt_sum s)).
(** model.py:127-129 with the default counts *)
Definition new_ktb (h : heap) : heap * ptr := let '(h, l) := halloc h (LCounts [/2; /2]) in halloc h (OKTB l).
(** model.py:155-159 *)
Definition new_sad (h : heap) (n : Z) : heap * ptr := let '(h, d) := halloc h (DCounts []) in halloc h (OSAD n d 0).
Definition new_dumb (h : heap) : heap * ptr := halloc h ODumb.
(** model.py:195-202 *)
Definition new_avg (h : heap) (models : list ptr) : result (heap * ptr) :=
  do q <- py_div 1 (INR (length models));
  do l <- py_log q;
  let '(h, d) := halloc h (DModels (fold_left (fun d m => models_set d m l) models [])) in
  Ok (halloc h (OAvg d 0)).
(** model.py:850-851. [factors] is a list that nothing else uses. *)
Definition new_fac (h : heap) (factors : list ptr) : heap * ptr := let '(h, l) := halloc h (LModels factors) in halloc h (OFac l).

(** model.py:106-107 *)
Definition o_kt_logp (h : heap) (counts : ptr) (sum : R) (symbol : Z) : result R :=
  do d <- get_counts h counts;
  do c <- dict_lookup d symbol;
  do q <- py_div c sum;
  py_log q.

(** model.py:136-137 *)
Definition o_ktb_logp (h : heap) (counts : ptr) (symbol : Z) : result R :=
  do l <- get_list h counts;
  do c <- py_get l symbol;
  do c0 <- py_get l 0;
  do c1 <- py_get l 1;
  do q <- py_div c (c0 + c1);
  py_log q.

(** model.py:168-179 *)
Definition o_sad_logp (h : heap) (n : Z) (counts : ptr) (sum : R) (symbol : Z) : result R :=
  do d <- get_counts h counts;
  let m := py_min2 (INR (length d)) sum in
  do beta <- (if Rlt_dec 0 sum then do q <- py_div (sum + 1) m; do l <- py_log q; py_div m (2 * l) else Ok 1);
  match dict_get d symbol with
  | Some c => do q <- py_div c (sum + beta); py_log q
  | None => do q <- py_div beta (IZR (n - Z.of_nat (length d)) * (sum + beta)); py_log q
  end.

(** [len(history) % len(self.factors)] and [self.factors[index]] (model.py:854-855, 858-859) *)
Definition the_factor (l : list ptr) (history : list Z) : result ptr :=
  match l with
  | [] => Err ZeroDivisionError
  | _ => match nth_error l (Nat.modulo (length history) (length l)) with Some m => Ok m | None => Err IndexError end
  end.

(** log_predict of each class (model.py:106, 136, 168, 213, 853, 879). [fuel] bounds the depth to which objects hold objects. *)
Fixpoint o_logp (fuel : nat) (h : heap) (p : ptr) (symbol : Z) (history : list Z) : result R :=
  match fuel with
  | O => Err OutOfFuel
  | S fuel =>
      do c <- hget h p;
      match c with
      | OKT counts sum => o_kt_logp h counts sum symbol
      | OKTB counts => o_ktb_logp h counts symbol
      | OSAD n counts sum => o_sad_logp h n counts sum symbol
      | OAvg models log_prob =>
          do d <- get_models h models;
          do ls <- mapM (fun kv : ptr * R => do l <- o_logp fuel h (fst kv) symbol history; Ok (l + snd kv)) d;
          do l <- logsumexp ls;
          Ok (l - log_prob)
      | OFac factors =>
          do l <- get_factors h factors;
          do m <- the_factor l history;
          o_logp fuel h m symbol history
      | ODumb => Ok 0
      | _ => Err AttributeError
      end
  end.

(** update of each class (model.py:100, 131, 161, 204, 857, 882) *)
Section update.
  (** update of the objects held *)
  Variable upd : heap -> ptr -> result (heap * R).

  (** model.py:207-208: the loop over the keys of the dictionary at [models] *)
  Fixpoint avg_loop (h : heap) (models : ptr) (keys : list ptr) : result heap :=
    match keys with
    | [] => Ok h
    | m :: keys' =>
        do d <- get_models h models;
        do x <- models_get d m;
        do (h, l) <- upd h m;
        do d <- get_models h models;
        avg_loop (hput h models (DModels (models_set d m (x + l)))) models keys'
    end.
End update.

Fixpoint o_update (fuel : nat) (h : heap) (p : ptr) (symbol : Z) (history : list Z) (weight : R) : result (heap * R) :=
  match fuel with
  | O => Err OutOfFuel
  | S fuel =>
      do c <- hget h p;
      match c with
      | OKT counts sum =>
          do rv <- o_kt_logp h counts sum symbol;
          do d <- get_counts h counts;
          do c <- dict_lookup d symbol;
          let h := hput h counts (DCounts (dict_set d symbol (c + weight))) in
          Ok (hput h p (OKT counts (sum + weight)), rv)
      | OKTB counts =>
          do rv <- o_ktb_logp h counts symbol;
          do l <- get_list h counts;
          do c <- py_get l symbol;
          do l <- py_set l symbol (c + weight);
          Ok (hput h counts (LCounts l), rv)
      | OSAD n counts sum =>
          do rv <- o_sad_logp h n counts sum symbol;
          do d <- get_counts h counts;
          let c := match dict_get d symbol with Some c => c | None => 0 end in
          let h := hput h counts (DCounts (dict_set d symbol (c + weight))) in
          Ok (hput h p (OSAD n counts (sum + weight)), rv)
      | OAvg models log_prob =>
          do d <- get_models h models;
          do h <- avg_loop (fun h m => o_update fuel h m symbol history weight) h models (map fst d);
          do d <- get_models h models;
          do lp <- logsumexp (map snd d);
          Ok (hput h p (OAvg models lp), lp - log_prob)
      | OFac factors =>
          do l <- get_factors h factors;
          do m <- the_factor l history;
          o_update fuel h m symbol history 1
      | ODumb => Ok (h, 0)
      | _ => Err AttributeError
      end
  end.

(** copying each element in turn *)
Fixpoint copies (copy : heap -> ptr -> result (heap * ptr)) (h : heap) (l : list ptr) : result (heap * list ptr) :=
  match l with
  | [] => Ok (h, [])
  | m :: l' => do (h, c) <- copy h m; do (h, cs) <- copies copy h l'; Ok (h, c :: cs)
  end.

(** copy of each class (model.py:109-114, 139-143, 181-187, 217-222, 861-865); Dumb has the inherited one (73-78). The object is made
    after what it holds, which cannot be observed. *)
Fixpoint o_copy (fuel : nat) (h : heap) (p : ptr) : result (heap * ptr) :=
  match fuel with
  | O => Err OutOfFuel
  | S fuel =>
      do c <- hget h p;
      match c with
      | OKT counts sum =>
          do d <- get_counts h counts;
          let '(h, q) := halloc h (DCounts d) in
          Ok (halloc h (OKT q sum))
      | OKTB counts =>
          do l <- get_list h counts;
          let '(h, q) := halloc h (LCounts l) in
          Ok (halloc h (OKTB q))
      | OSAD n counts sum =>
          do d <- get_counts h counts;
          let '(h, q) := halloc h (DCounts d) in
          Ok (halloc h (OSAD n q sum))
      | OAvg models log_prob =>
          do d <- get_models h models;
          do (h, ms) <- copies (o_copy fuel) h (map fst d);
          let '(h, q) := halloc h (DModels (combine ms (map snd d))) in
          Ok (halloc h (OAvg q log_prob))
      | OFac factors =>
          do l <- get_factors h factors;
          do (h, ms) <- copies (o_copy fuel) h l;
          let '(h, q) := halloc h (LModels ms) in
          Ok (halloc h (OFac q))
      | ODumb => Err NotImplementedError
      | _ => Err AttributeError
      end
  end.

(** The variables of a program; [None]: no longer used. *)
Record world := World { w_heap : heap; w_vars : list (option ptr) }.

Definition var (w : world) (i : nat) : result ptr := match nth_error (w_vars w) i with Some (Some p) => Ok p | _ => Err NameError end.

(** Enough for every object in memory that was made after what it holds. *)
Definition depth_bound (h : heap) : nat := S (length h).

(** the objects of some variables, which are deleted *)
Fixpoint take {X} (vars : list (option X)) (l : list nat) : result (list (option X) * list X) :=
  match l with
  | [] => Ok (vars, [])
  | i :: l' =>
      match nth_error vars i with
      | Some (Some p) => do (vars, ps) <- take (list_set vars i None) l'; Ok (vars, p :: ps)
      | _ => Err NameError
      end
  end.

(** One statement of a program. A model that is given to an Averager or a Factored is not used in another way from then on. *)
Inductive mop :=
| MKT (alphabet : list Z) | MKTB | MSAD (n : Z) | MDumb
| MAvg (models : list nat) | MFac (factors : list nat)
| MCopy (i : nat) | MDel (i : nat)
| MUpdate (i : nat) (symbol : Z) (history : list Z) (weight : R)
| MPredict (i : nat) (symbol : Z) (history : list Z).

(** the program goes on with a new variable *)
Definition with_new (w : heap * ptr) (vars : list (option ptr)) : world * list R := (World (fst w) (vars ++ [Some (snd w)]), []).

Definition step (w : world) (o : mop) : result (world * list R) :=
  let h := w_heap w in
  let vars := w_vars w in
  match o with
  | MKT alphabet => Ok (with_new (new_kt h alphabet) vars)
  | MKTB => Ok (with_new (new_ktb h) vars)
  | MSAD n => Ok (with_new (new_sad h n) vars)
  | MDumb => Ok (with_new (new_dumb h) vars)
  | MAvg l => do (vars, ms) <- take vars l; do w <- new_avg h ms; Ok (with_new w vars)
  | MFac l => do (vars, ms) <- take vars l; Ok (with_new (new_fac h ms) vars)
  | MCopy i => do p <- var w i; do w <- o_copy (depth_bound h) h p; Ok (with_new w vars)
  | MDel i => do _ <- var w i; Ok (World h (list_set vars i None), [])
  | MUpdate i a hist x => do p <- var w i; do (h, r) <- o_update (depth_bound h) h p a hist x; Ok (World h vars, [r])
  | MPredict i a hist => do p <- var w i; do r <- o_logp (depth_bound h) h p a hist; Ok (w, [r])
  end.

(** a program: the values that its statements return, or the first exception *)
Fixpoint program (w : world) (ops : list mop) : result (list R) :=
  match ops with
  | [] => Ok []
  | o :: ops' => do (w, r) <- step w o; do rs <- program w ops'; Ok (r ++ rs)
  end.
