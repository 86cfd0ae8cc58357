(** model.py:81-187: KT, KTBinary, SAD. *)
From Verif Require Export Model.Iface.
Open Scope R_scope.

(** ** KT (model.py:81-114) *)
Record kt := KT { kt_counts : dict R; kt_sum : R }.

(** model.py:94-98 with counts=None: the dict comprehension
    [{a: 1.0/len(alphabet) for a in alphabet}]. A repeated symbol is one key. *)
Definition kt_init (alphabet : list Z) : kt :=
  let c := fold_left (fun d a => dict_set d a (1 / INR (length alphabet))) alphabet [] in
  KT c (Rsum (dict_values c)).

(** model.py:94-95,98 with a non-empty [counts] dictionary. *)
Definition kt_init_counts (alphabet : list Z) (counts : dict R) : result kt :=
  do kvs <- mapM (fun a => do c <- dict_lookup counts a; Ok (a, c)) alphabet;
  let c := fold_left (fun d kv => dict_set d (fst kv) (snd kv)) kvs [] in
  Ok (KT c (Rsum (dict_values c))).

(** model.py:106-107 *)
Definition kt_log_predict (s : kt) (symbol : Z) (history : list Z) : result R :=
  do c <- dict_lookup (kt_counts s) symbol;
  do q <- py_div c (kt_sum s);
  py_log q.

(** model.py:100-104 *)
Definition kt_update (s : kt) (symbol : Z) (history : list Z) (weight : R)
  : result (kt * R) :=
  do rv <- kt_log_predict s symbol history;
  do c <- dict_lookup (kt_counts s) symbol;
  Ok (KT (dict_set (kt_counts s) symbol (c + weight)) (kt_sum s + weight), rv).

Definition KT_model : model kt := Model kt_update kt_log_predict.

(** ** KTBinary (model.py:117-143): a two-element list of counts; Python list
    indexing accepts 0, 1, -1 and -2. *)
Definition ktb := list R.

(** model.py:129 *)
Definition ktb_init : ktb := [/ 2; / 2].

(** model.py:136-137 *)
Definition ktb_log_predict (s : ktb) (symbol : Z) (history : list Z) : result R :=
  do c <- py_get s symbol;
  do c0 <- py_get s 0;
  do c1 <- py_get s 1;
  do q <- py_div c (c0 + c1);
  py_log q.

(** model.py:131-134 *)
Definition ktb_update (s : ktb) (symbol : Z) (history : list Z) (weight : R)
  : result (ktb * R) :=
  do rv <- ktb_log_predict s symbol history;
  do c <- py_get s symbol;
  do s' <- py_set s symbol (c + weight);
  Ok (s', rv).

Definition KTB_model : model ktb := Model ktb_update ktb_log_predict.

(** ** SAD (model.py:146-187) *)
Record sad := SAD { sad_n : Z; sad_counts : dict R; sad_sum : R }.

(** model.py:155-159 *)
Definition sad_init (n : Z) : sad := SAD n [] 0.

(** model.py:169-173 *)
Definition sad_beta (s : sad) : result R :=
  let m := py_min2 (INR (length (sad_counts s))) (sad_sum s) in
  if Rlt_dec 0 (sad_sum s) then
    do q <- py_div (sad_sum s + 1) m;
    do l <- py_log q;
    py_div m (2 * l)
  else Ok 1.

(** model.py:168-179 *)
Definition sad_log_predict (s : sad) (symbol : Z) (history : list Z) : result R :=
  do beta <- sad_beta s;
  match dict_get (sad_counts s) symbol with
  | Some c => do q <- py_div c (sad_sum s + beta); py_log q
  | None =>
      do q <- py_div beta
                (IZR (sad_n s - Z.of_nat (length (sad_counts s))) * (sad_sum s + beta));
      py_log q
  end.

(** model.py:161-166 *)
Definition sad_update (s : sad) (symbol : Z) (history : list Z) (weight : R)
  : result (sad * R) :=
  do rv <- sad_log_predict s symbol history;
  let c := match dict_get (sad_counts s) symbol with Some c => c | None => 0 end in
  Ok (SAD (sad_n s) (dict_set (sad_counts s) symbol (c + weight)) (sad_sum s + weight), rv).

Definition SAD_model : model sad := Model sad_update sad_log_predict.

(** ** Dumb (model.py:868-885) *)
Definition Dumb_model : model unit := Model (fun s _ _ _ => Ok (s, 0)) (fun _ _ _ => Ok 0).
