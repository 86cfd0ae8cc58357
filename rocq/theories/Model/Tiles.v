(** sensors.py:1-320: tile coding. numpy arrays of floats are lists of reals; floor division of
    floats is the floor of the exact quotient. *)
From Verif Require Export Model.Float.
Open Scope R_scope.

(** [math.floor(x)] and [math.ceil(x)] *)
Definition floor (x : R) : Z := Int_part x.
Definition ceil (x : R) : Z := (- Int_part (- x))%Z.

(** [x // w] on numpy floats (a zero width is excluded by the constructor below) *)
Definition floor_div (x w : R) : Z := floor (x / w).

(** [range(start, stop, step)]; ValueError for a zero step *)
Definition py_range3 (start stop step : Z) : result (list Z) :=
  if (step =? 0)%Z then Err ValueError
  else
    let count := if (0 <? step)%Z then ((stop - start + step - 1) / step)%Z
                 else ((start - stop - step - 1) / (- step))%Z in
    Ok (map (fun k => (start + Z.of_nat k * step)%Z) (seq 0 (Z.to_nat count))).

(** [np.arange(0, stop, step)] *)
Definition np_arange (stop step : R) : list R :=
  map (fun k => INR k * step) (seq 0 (Z.to_nat (ceil (stop / step)))).

(** [a * b] on one-dimensional numpy arrays: a single entry is broadcast *)
Definition np_mul (a b : list Z) : result (list Z) :=
  if (length a =? length b)%nat then Ok (map (fun p => (fst p * snd p)%Z) (combine a b))
  else match a, b with
       | [x], _ => Ok (map (fun y => (x * y)%Z) b)
       | _, [y] => Ok (map (fun x => (x * y)%Z) a)
       | _, _ => Err ValueError
       end.

Definition Zsum (l : list Z) : Z := fold_left Z.add l 0%Z.

(** sensors.py:50-68 *)
Definition active_tile_coords (signal : list R) (offset tile_width : R) : list Z :=
  map (fun x => floor_div (x + offset) tile_width) signal.

(** sensors.py:16-48 *)
Definition active_tile_bit (signal : list R) (offset tile_width : R) (tile_bases : list Z) : result Z :=
  do p <- np_mul (active_tile_coords signal offset tile_width) tile_bases;
  Ok (Zsum p).

(** sensors.py:82-113 *)
Definition active_tiling_bits (signal offsets : list R) (tiling_bases : list Z) (tile_width : R)
  (tile_bases : list Z) (bias_index : option Z) : result (list Z) :=
  do ib <- match bias_index with
           | None => Ok ([], tiling_bases)
           | Some b =>
               do b0 <- py_get tiling_bases 0;
               Ok ([b], if (b =? b0)%Z then map (fun i => (i + 1)%Z) tiling_bases else tiling_bases)
           end;
  let '(indices, tiling_bases) := ib in
  do tiles <- mapM (fun i =>
      do offset <- py_get offsets (Z.of_nat i);
      do tile_id <- active_tile_bit signal offset tile_width tile_bases;
      do base <- py_get tiling_bases (Z.of_nat i);
      Ok (tile_id + base)%Z) (seq 0 (length tiling_bases));
  Ok (indices ++ tiles).

(** sensors.py:115-208: the attributes *)
Record TileCoder := {
  tc_num_tilings : nat;
  tc_dimensionality : nat;
  tc_bias : bool;
  tc_num_active : Z;
  tc_tiles_per_axis : Z;
  tc_tile_width : R;
  tc_tiles_per_tiling : Z;
  tc_num_bits : Z;
  tc_num_features : Z;
  tc_bias_index : option Z;
  tc_tiling_bases : list Z;
  tc_offsets : list R;
  tc_tile_bases : list Z }.

(** sensors.py:128-208, for numbers of tilings and dimensions that are not negative *)
Definition TileCoder_init (num_tilings dimensionality : nat) (tile_width : option R) (bias : bool)
  : result TileCoder :=
  let n := Z.of_nat num_tilings in
  do tw <- match tile_width with
           | None => do w <- py_div 1 (IZR n); Ok ((n + 1)%Z, w)
           | Some w => do q <- py_div 1 w; Ok ((floor q + 1)%Z, w)
           end;
  let '(tiles_per_axis, width) := tw in
  let tiles_per_tiling := (tiles_per_axis ^ Z.of_nat dimensionality)%Z in
  let num_bits := (tiles_per_tiling * n)%Z in
  let num_features := if bias then (num_bits + 1)%Z else num_bits in
  let base_start := if bias then 1%Z else 0%Z in
  do tiling_bases <- py_range3 base_start num_features tiles_per_tiling;
  do step <- py_div width (IZR n);
  Ok {| tc_num_tilings := num_tilings;
        tc_dimensionality := dimensionality;
        tc_bias := bias;
        tc_num_active := if bias then (n + 1)%Z else n;
        tc_tiles_per_axis := tiles_per_axis;
        tc_tile_width := width;
        tc_tiles_per_tiling := tiles_per_tiling;
        tc_num_bits := num_bits;
        tc_num_features := num_features;
        tc_bias_index := if bias then Some 0%Z else None;
        tc_tiling_bases := tiling_bases;
        tc_offsets := np_arange width step;
        tc_tile_bases := map (fun i => (tiles_per_axis ^ Z.of_nat i)%Z) (seq 0 dimensionality) |}.

(** sensors.py:210-245 *)
Definition get_coder (t : TileCoder) (signal : list R) : result (list Z) :=
  active_tiling_bits signal (tc_offsets t) (tc_tiling_bases t) (tc_tile_width t) (tc_tile_bases t)
    (tc_bias_index t).

(** sensors.py:247-265 *)
Definition get_active_tile (t : TileCoder) (signal : list R) (tiling_id : Z) : result Z :=
  do offset <- py_get (tc_offsets t) tiling_id;
  active_tile_bit signal offset (tc_tile_width t) (tc_tile_bases t).

(** sensors.py:267-326: also [__call__] and [update] *)
Definition get_active_tiles (t : TileCoder) (signal : list R) : result (list Z) :=
  do ind <- active_tiling_bits signal (tc_offsets t) (tc_tiling_bases t) (tc_tile_width t)
              (tc_tile_bases t) None;
  Ok (match tc_bias_index t with
      | Some b => if tc_bias t then ind ++ [b] else ind
      | None => ind
      end).

(** sensors.py:7-14 *)
Definition get_pairs (dims : nat) : list (nat * nat) :=
  flat_map (fun i => map (fun j => (i, j)) (seq (S i) (dims - S i))) (seq 0 dims).

(** sensors.py:70-80 *)
Definition concatenate_coders (signal : list R) (coder_funs : list (list R -> result (list Z)))
  (coder_ind : list (list Z)) (coder_offsets : list Z) : result (list Z) :=
  do parts <- mapM (fun i =>
      do inds <- py_get coder_ind (Z.of_nat i);
      do sig <- mapM (fun j => py_get signal j) inds;
      do f <- py_get coder_funs (Z.of_nat i);
      do ind <- f sig;
      mapM (fun j => do o <- py_get coder_offsets (Z.of_nat i); Ok (j + o)%Z) ind)
    (seq 0 (length coder_funs));
  Ok (concat parts).
