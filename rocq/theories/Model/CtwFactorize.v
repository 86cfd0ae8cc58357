(** ctw.py:389-426: Factorize, and the class Factorized that it defines. *)
From Verif Require Export Model.CtwCTW.
Open Scope R_scope.

Section factorize.
  Context {S : Type}.
  (** [update] and [log_predict] of the factors, given the contents of the history they share
      (ctw.py:395, 400: [m.use_history(self.history)] makes them use this very list and not append to it). *)
  Variable upd : S -> Z -> list Z -> R -> result (S * R).
  Variable prd : S -> Z -> list Z -> result (S * R).
  (** [Base()], assumed to return an equal fresh model each time. *)
  Variable fresh : S.
  Variable nfactors : Z.

  (** The fields: [models], [history] (the contents of the list), [update_history], [log_prob]. *)
  Record fobj := FObj { fo_models : list S; fo_history : list Z; fo_update_history : bool; fo_log_prob : R }.

  (** ctw.py:391-395, with 17-20; [range] of a negative number is empty *)
  Definition fz_init : fobj := FObj (repeat fresh (Z.to_nat nfactors)) [] true 0.

  (** ctw.py:397-400, with 22-24: it takes no [update_history], which becomes False *)
  Definition fz_use_history (s : fobj) (history : list Z) : fobj := FObj (fo_models s) history false (fo_log_prob s).

  (** [self.models[len(self.history) % nfactors]] (ctw.py:403, 413) *)
  Definition fz_index (s : fobj) : result nat :=
    if (nfactors =? 0)%Z then Err ZeroDivisionError
    else py_index (fo_models s) (Z.of_nat (length (fo_history s)) mod nfactors).

  (** ctw.py:402-410 *)
  Definition fz_update (s : fobj) (symbol : Z) (weight : R) : result (fobj * R) :=
    do i <- fz_index s;
    match nth_error (fo_models s) i with
    | None => Err IndexError
    | Some m =>
        do (m', rv) <- upd m symbol (fo_history s) weight;
        let h := if fo_update_history s then fo_history s ++ [symbol] else fo_history s in
        Ok (FObj (list_set (fo_models s) i m') h (fo_update_history s) (fo_log_prob s + rv), rv)
    end.

  (** ctw.py:412-414; the factor may change (CTW creates nodes) *)
  Definition fz_log_predict (s : fobj) (symbol : Z) : result (fobj * R) :=
    do i <- fz_index s;
    match nth_error (fo_models s) i with
    | None => Err IndexError
    | Some m =>
        do (m', rv) <- prd m symbol (fo_history s);
        Ok (FObj (list_set (fo_models s) i m') (fo_history s) (fo_update_history s) (fo_log_prob s), rv)
    end.

  (** ctw.py:36-41 *)
  Fixpoint fz_update_loop (s : fobj) (seq : list Z) (weight : R) : result fobj :=
    match seq with
    | [] => Ok s
    | x :: seq' => do (s', _) <- fz_update s x weight; fz_update_loop s' seq' weight
    end.
  Definition fz_update_seq (s : fobj) (seq : list Z) (weight : R) : result (fobj * R) :=
    do s' <- fz_update_loop s seq weight; Ok (s', fo_log_prob s' - fo_log_prob s).

  Definition fz_with_history (s : fobj) (h : list Z) : fobj := FObj (fo_models s) h (fo_update_history s) (fo_log_prob s).

  (** ctw.py:419-422. The object is returned also when an exception is raised: the history then
      keeps the symbols appended so far. *)
  Fixpoint fz_predict_loop (s : fobj) (seq : list Z) (rv : R) (rollback : Z) : fobj * result (R * Z) :=
    match seq with
    | [] => (s, Ok (rv, rollback))
    | x :: seq' =>
        match fz_log_predict s x with
        | Err e => (s, Err e)
        | Ok (s', l) => fz_predict_loop (fz_with_history s' (fo_history s' ++ [x])) seq' (rv + l) (rollback + 1)
        end
    end.
  (** ctw.py:416-424; [self.history[-rollback:] = []] *)
  Definition fz_log_predict_seq (s : fobj) (seq : list Z) : fobj * result R :=
    match fz_predict_loop s seq 0 0 with
    | (s', Err e) => (s', Err e)
    | (s', Ok (rv, rollback)) =>
        (fz_with_history s' (firstn (slice_start (fo_history s') (- rollback)) (fo_history s')), Ok rv)
    end.

  (** What a name may stand for: the function Factorize, of two arguments, or the class, of none. *)
  Inductive callable := TheFunction | TheClass.
  (** ctw.py:426: [return Factorize], not [return Factorized] *)
  Definition factorize : callable := TheFunction.
  (** calling without arguments *)
  Definition call0 (c : callable) : result fobj :=
    match c with TheFunction => Err TypeError | TheClass => Ok fz_init end.
End factorize.
Arguments FObj {S}.
Arguments fo_models {S}.
Arguments fo_history {S}.
Arguments fo_update_history {S}.
Arguments fo_log_prob {S}.

(** Factors that are CTW objects: [use_history] with update_history False, then the call. *)
Definition ctw_factor_update {S} (Q : probseq S) (fresh : S) (mkctx : list Z -> list Z) (s : qobj (S := S)) (a : Z) (h : list Z) (w : R) :=
  qobj_update Q fresh mkctx (use_history s h false) a w.
Definition ctw_factor_predict {S} (Q : probseq S) (fresh : S) (mkctx : list Z -> list Z) (s : qobj (S := S)) (a : Z) (h : list Z) :=
  qobj_log_predict Q fresh mkctx (use_history s h false) a.
