(** ac.py with the arithmetic of Python's floats as a parameter: the coders of Model/AC.v over a model
    that computes with [F], with the operations on floats of ac.py done by [F] and [mul], too.
    The bounds of the intervals are Python's integers, which are exact. *)
From Verif Require Export Model.AC Model.Floats.
Open Scope Z_scope.

(** [mul x y] is [x * y] on floats. The first argument is an integer converted to a float: it is below
    2^53, so the conversion is exact. *)
Definition fp_coder_of {S} (F : floats) (mul : R -> R -> R) (M : model S) : coder_model S := CoderModel
  (** ac.py:96-98 *)
  (fun s symbol range =>
     do (s', l) <- m_update M s symbol [] 1%R;
     let p_symbol := f_exp F l in
     let p_zero := if symbol =? 0 then p_symbol else f_sub F 1 p_symbol in
     Ok (s', Z.max 1 (py_int (mul (IZR range) p_zero))))
  (** ac.py:189-190; [predict] is [math.exp(self.log_predict(data))], ctw.py:57-58, learners.py:42-43 *)
  (fun s range =>
     do l <- m_logp M s 0 [];
     Ok (py_int (mul (IZR range) (f_exp F l))))
  (** ac.py:194 *)
  (fun s symbol => do (s', _) <- m_update M s symbol [] 1%R; Ok s').
