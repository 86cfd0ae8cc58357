(** Models as values: what a program computes if every copy is deep. *)
From Verif Require Export Model.Copies.
Open Scope R_scope.

(** A model with all it holds. *)
Inductive val :=
| VKT (s : kt) | VKTB (s : ktb) | VSAD (s : sad) | VDumb
| VAvg (models : list (val * R)) (log_prob : R)
| VFac (factors : list val).

(** The Averager weighs its models by the probability they gave to all symbols, the Factored uses its models in turn. *)
Section members.
  Variables (upd : val -> result (val * R)) (prd : val -> result R).
  Fixpoint update_all (l : list (val * R)) : result (list (val * R)) :=
    match l with [] => Ok [] | (m, x) :: l' => do (m, r) <- upd m; do l' <- update_all l'; Ok ((m, x + r) :: l') end.
  Fixpoint predict_all (l : list (val * R)) : result (list R) :=
    match l with [] => Ok [] | (m, x) :: l' => do r <- prd m; do l' <- predict_all l'; Ok (r + x :: l') end.
  Fixpoint update_at (l : list val) (i : nat) : result (list val * R) :=
    match l, i with
    | [], _ => Err IndexError
    | m :: l', O => do (m, r) <- upd m; Ok (m :: l', r)
    | m :: l', S i => do (l', r) <- update_at l' i; Ok (m :: l', r)
    end.
  Fixpoint predict_at (l : list val) (i : nat) : result R :=
    match l, i with [], _ => Err IndexError | m :: _, O => prd m | _ :: l', S i => predict_at l' i end.
End members.

Definition turn (l : list val) (history : list Z) : result nat :=
  match l with [] => Err ZeroDivisionError | _ => Ok (Nat.modulo (length history) (length l)) end.

Fixpoint v_update (v : val) (a : Z) (history : list Z) (w : R) {struct v} : result (val * R) :=
  match v with
  | VKT s => do (s, r) <- kt_update s a history w; Ok (VKT s, r)
  | VKTB s => do (s, r) <- ktb_update s a history w; Ok (VKTB s, r)
  | VSAD s => do (s, r) <- sad_update s a history w; Ok (VSAD s, r)
  | VDumb => Ok (VDumb, 0)
  | VAvg ms lp =>
      do ms <- update_all (fun m => v_update m a history w) ms;
      do l <- logsumexp (map snd ms);
      Ok (VAvg ms l, l - lp)
  | VFac ms =>
      do i <- turn ms history;
      do (ms, r) <- update_at (fun m => v_update m a history 1) ms i;
      Ok (VFac ms, r)
  end.

Fixpoint v_predict (v : val) (a : Z) (history : list Z) {struct v} : result R :=
  match v with
  | VKT s => kt_log_predict s a history
  | VKTB s => ktb_log_predict s a history
  | VSAD s => sad_log_predict s a history
  | VDumb => Ok 0
  | VAvg ms lp => do ls <- predict_all (fun m => v_predict m a history) ms; do l <- logsumexp ls; Ok (l - lp)
  | VFac ms => do i <- turn ms history; predict_at (fun m => v_predict m a history) ms i
  end.

(** every class but Dumb has copy *)
Fixpoint has_copy (v : val) : bool :=
  match v with
  | VDumb => false
  | VAvg ms _ => forallb (fun mx => has_copy (fst mx)) ms
  | VFac ms => forallb has_copy ms
  | _ => true
  end.

Definition v_var (vars : list (option val)) (i : nat) : result val := match nth_error vars i with Some (Some v) => Ok v | _ => Err NameError end.

(** one statement of a program whose variables hold values *)
Definition v_step (vars : list (option val)) (o : mop) : result (list (option val) * list R) :=
  match o with
  | MKT alphabet => Ok (vars ++ [Some (VKT (kt_init alphabet))], [])
  | MKTB => Ok (vars ++ [Some (VKTB ktb_init)], [])
  | MSAD n => Ok (vars ++ [Some (VSAD (sad_init n))], [])
  | MDumb => Ok (vars ++ [Some VDumb], [])
  | MAvg l =>
      do (vars, ms) <- take vars l;
      match ms with
      | [] => Err ZeroDivisionError
      | _ => Ok (vars ++ [Some (VAvg (map (fun m => (m, ln (1 / INR (length ms)))) ms) 0)], [])
      end
  | MFac l => do (vars, ms) <- take vars l; Ok (vars ++ [Some (VFac ms)], [])
  | MCopy i => do v <- v_var vars i; if has_copy v then Ok (vars ++ [Some v], []) else Err NotImplementedError
  | MDel i => do _ <- v_var vars i; Ok (list_set vars i None, [])
  | MUpdate i a h w => do v <- v_var vars i; do (v, r) <- v_update v a h w; Ok (list_set vars i (Some v), [r])
  | MPredict i a h => do v <- v_var vars i; do r <- v_predict v a h; Ok (vars, [r])
  end.

Fixpoint v_program (vars : list (option val)) (ops : list mop) : result (list R) :=
  match ops with
  | [] => Ok []
  | o :: ops' => do (vars, r) <- v_step vars o; do rs <- v_program vars ops'; Ok (r ++ rs)
  end.

(** [f] embeds the states of a model class in the values. *)
Definition behaves {S} (M : model S) (f : S -> val) : Prop := forall s a h,
  (forall w, v_update (f s) a h w = (do (s', r) <- m_update M s a h w; Ok (f s', r))) /\ v_predict (f s) a h = m_logp M s a h.
