(** C43: tile coding. *)
From Coq Require Import Lra.
From Verif Require Import Model.Tiles Spec.Tiles Proofs.TilesFacts.
Open Scope R_scope.

(** If the inverse of the tile width exceeds an integer by less than the inverse of the number of
    tilings, every signal in the unit cube activates one tile of every tiling and the bias: all
    different, all valid indices, those of each tiling in its own block. *)
Theorem C43_tiles_partial : forall (n d : nat) (width : option R) (bias : bool) (t : TileCoder)
  (signal : list R), (0 < n)%nat -> fits n width -> TileCoder_init n d width bias = Ok t ->
  length signal = d -> (forall x, In x signal -> 0 <= x <= 1) ->
  exists ind, get_active_tiles t signal = Ok ind /\
    Z.of_nat (length ind) = tc_num_active t /\ NoDup ind /\
    (forall i, In i ind -> 0 <= i < tc_num_features t)%Z /\
    forall k, (k < n)%nat ->
      let base := if bias then 1%Z else 0%Z in
      (base + Z.of_nat k * tc_tiles_per_tiling t <= nth k ind 0 <
       base + (Z.of_nat k + 1) * tc_tiles_per_tiling t)%Z.
Proof. exact tiles_ok. Qed.
Print Assumptions C43_tiles_partial.

(** The default width always satisfies the condition, and the constructor succeeds. *)
Theorem C43_default_fits : forall n, (0 < n)%nat -> fits n None.
Proof. exact fits_default. Qed.
Print Assumptions C43_default_fits.
Example C43_init_ex : exists t, TileCoder_init 4 2 None true = Ok t /\ tc_num_features t = 101%Z.
Proof.
  destruct (init_described 4 2 None true) as (t & E & D); [lia|cbn; lra|].
  exists t. split; [exact E|]. destruct D as [_ _ _ _ D4 _ D5 D6 D7 _ _ _ _].
  rewrite D7, D6, D5, D4. cbn [the_width].
  rewrite default_inverse, floor_IZR by lia. reflexivity.
Qed.

(** For other widths the condition is exactly what is needed. *)
Theorem C43_range_exact : forall (n d : nat) (w : R) (bias : bool) (t : TileCoder),
  (0 < n)%nat -> (0 < d)%nat -> 0 < w -> TileCoder_init n d (Some w) bias = Ok t ->
  (forall signal ind, length signal = d -> (forall x, In x signal -> 0 <= x <= 1) ->
     get_active_tiles t signal = Ok ind -> forall i, In i ind -> (i < tc_num_features t)%Z) <->
  1 / w - IZR (floor (1 / w)) < / INR n.
Proof. exact range_exact. Qed.
Print Assumptions C43_range_exact.

(** So some coders put out indices that are not below the number of features. *)
Theorem C43_range_refuted : exists n w t signal ind i, (0 < n)%nat /\ 0 < w < 1 /\
  TileCoder_init n 1 (Some w) true = Ok t /\ signal = [1] /\
  get_active_tiles t signal = Ok ind /\ In i ind /\ (tc_num_features t <= i)%Z.
Proof. exact tiles_overflow. Qed.
Print Assumptions C43_range_refuted.

(** Two signals share the tile of a tiling exactly when they lie in the same cell of its grid. *)
Theorem C43_same_tile : forall (n d : nat) (width : option R) (bias : bool) (t : TileCoder)
  (s1 s2 : list R) (i1 i2 : list Z) (k : nat), (0 < n)%nat -> fits n width ->
  TileCoder_init n d width bias = Ok t -> length s1 = d -> length s2 = d ->
  (forall x, In x s1 -> 0 <= x <= 1) -> (forall x, In x s2 -> 0 <= x <= 1) ->
  get_active_tiles t s1 = Ok i1 -> get_active_tiles t s2 = Ok i2 -> (k < n)%nat ->
  let w := the_width n width in
  nth k i1 0%Z = nth k i2 0%Z <->
  forall j, (j < d)%nat ->
    floor (nth j s1 0 / w + INR k / INR n) = floor (nth j s2 0 / w + INR k / INR n).
Proof. exact same_tile_iff. Qed.
Print Assumptions C43_same_tile.

(** and then they differ by less than the tile width in every dimension *)
Theorem C43_resolution : forall w a x y : R, 0 < w ->
  floor (x / w + a) = floor (y / w + a) -> Rabs (x - y) < w.
Proof. exact resolution. Qed.
Print Assumptions C43_resolution.

(** get_coder puts the bias first and get_active_tiles puts it last; otherwise they agree with
    each other and with get_active_tile. *)
Theorem C43_coder : forall (n d : nat) (width : option R) (bias : bool) (t : TileCoder)
  (signal : list R), (0 < n)%nat -> 0 < the_width n width ->
  TileCoder_init n d width bias = Ok t -> length signal = d ->
  exists tiles, length tiles = n /\
    get_active_tiles t signal = Ok (tiles ++ if bias then [0%Z] else []) /\
    get_coder t signal = Ok ((if bias then [0%Z] else []) ++ tiles) /\
    forall k, (k < n)%nat -> exists c, get_active_tile t signal (Z.of_nat k) = Ok c /\
      nth k tiles 0%Z = (c + Z.of_nat k * tc_tiles_per_tiling t + if bias then 1 else 0)%Z.
Proof. exact coder_order. Qed.
Print Assumptions C43_coder.

Theorem C43_pairs : forall dims, NoDup (get_pairs dims) /\
  forall i j, In (i, j) (get_pairs dims) <-> (i < j < dims)%nat.
Proof. exact pairs_all. Qed.
Print Assumptions C43_pairs.
Example C43_pairs_ex : get_pairs 3 = [(0, 1); (0, 2); (1, 2)]%nat.
Proof. reflexivity. Qed.
