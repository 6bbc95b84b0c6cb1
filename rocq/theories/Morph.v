(** Model of the morphological preprocessing: fill_holes, fill_time_gaps,
    sparse_bool_power.  Source: /repo/marEx/track.py. *)
From Verif Require Import Base.
Open Scope Z_scope.

(** A 2-D boolean slice is an index function; its size travels separately.
    Only indices inside the size are meaningful (data_bin at one time, track.py:1520-1538). *)
Definition img := Z -> Z -> bool.

(** np.ogrid[-R : R + 1], track.py:1613. *)
Definition zrange (lo : Z) (n : nat) : list Z := map (fun k => lo + Z.of_nat k) (seq 0 n).

(** track.py:1612-1616: y, x in -R..R with x*x + y*y < R*R + 1. *)
Definition disk (R : Z) : list (Z * Z) :=
  let r := zrange (-R) (Z.to_nat (2 * R + 1)) in
  filter (fun p => Z.ltb (fst p * fst p + snd p * snd p) (R * R + 1))
         (list_prod r r).

(** scipy treats cells outside the padded array as border, track.py:1630-1634. *)
Definition inb (h w y x : Z) : bool :=
  (0 <=? y) && (y <? h) && (0 <=? x) && (x <? w).

(** dask_image.ndmorph.binary_dilation / binary_erosion with the default
    border value 0: cells outside the array count as False (track.py:1630-1634). *)
Definition dilate (se : list (Z * Z)) (h w : Z) (f : img) : img :=
  fun y x => existsb (fun d => inb h w (y + fst d) (x + snd d) && f (y + fst d) (x + snd d)) se.
Definition erode (se : list (Z * Z)) (h w : Z) (f : img) : img :=
  fun y x => forallb (fun d => inb h w (y + fst d) (x + snd d) && f (y + fst d) (x + snd d)) se.

(** binary_closing = erosion of dilation; binary_opening = dilation of erosion (binary_closing_dask and binary_opening_dask, track.py:1630-1634). *)
Definition closing se h w f := erode se h w (dilate se h w f).
Definition opening se h w f := dilate se h w (erode se h w f).

(** mode, track.py:1617. *)
Inductive pad_mode := Wrap | Edge.

(** DataArray.pad with mode wrap or edge, by [p] cells on each side, in both y
    and x (track.py:1624).  Index [Y] of the padded array is [Y - p] of the
    original one.  Wrapping is periodic also when the padding is wider than the
    array. *)
Definition clampZ (n k : Z) : Z := Z.max 0 (Z.min (n - 1) k).
Definition pad (m : pad_mode) (p ny nx : Z) (f : img) : img :=
  match m with
  | Wrap => fun Y X => f ((Y - p) mod ny) ((X - p) mod nx)
  | Edge => fun Y X => f (clampZ ny (Y - p)) (clampZ nx (X - p))
  end.

(** track.py:1608-1671, structured branch of fill_holes on one time slice.
    [regional] selects the padding mode. *)
Definition fill_holes_slice (regional : bool) (R ny nx : Z) (mask f : img) : img :=
  let filled :=
    if R =? 0 then f
    else
      let d := 2 * R in
      let g := pad (if regional then Edge else Wrap) d ny nx f in
      let c := closing (disk R) (ny + 2 * d) (nx + 2 * d) g in
      let o := opening (disk R) (ny + 2 * d) (nx + 2 * d) c in
      fun y x => o (y + d) (x + d) in
  fun y x => mask y x && filled y x.

(** The whole record: a list of slices (track.py:1520-1673). *)
Definition fill_holes (regional : bool) (R ny nx : Z) (mask : img) (s : list img) : list img :=
  map (fill_holes_slice regional R ny nx mask) s.

(** ** Temporal closing (track.py:1697-1722) *)

(** numpy: index into a 1-D array of length n, anything outside is False (track.py:1709-1710). *)
Definition at_t (l : list bool) (t : Z) : bool :=
  if (0 <=? t) && (t <? Z.of_nat (length l)) then nth (Z.to_nat t) l false else false.

(** A one-dimensional kernel of [k] ones; scipy centres it at index k/2 (time_kernel, track.py:1696-1703). *)
Definition kernel1 (k : Z) : list Z := zrange (- (k / 2)) (Z.to_nat k).
(** a new array of the same length, track.py:1710. *)
Definition tabulate (n : nat) (f : Z -> bool) : list bool := map (fun i => f (Z.of_nat i)) (seq 0 n).
(** binary_closing_dask along time, track.py:1710. *)
Definition dilate1 (k : Z) (l : list bool) : list bool :=
  tabulate (length l) (fun t => existsb (fun d => at_t l (t - d)) (kernel1 k)).
(** binary_closing_dask along time, track.py:1710. *)
Definition erode1 (k : Z) (l : list bool) : list bool :=
  tabulate (length l) (fun t => forallb (fun d => at_t l (t + d)) (kernel1 k)).

(** slice(k, -k): drops k items at both ends (track.py:1721). *)
Definition unpad (k : nat) (l : list bool) : list bool := firstn (length l - 2 * k) (skipn k l).

(** One cell's time series.  A negative T_fill makes numpy.ones raise (track.py:1697-1722). *)
Definition close_time (T : Z) (l : list bool) : option (list bool) :=
  if T =? 0 then Some l
  else if T + 1 <? 0 then None
  else
    let k := T + 1 in
    let kn := Z.to_nat k in
    let padded := repeat false kn ++ l ++ repeat false kn in
    Some (unpad kn (erode1 k (dilate1 k padded))).

(** The record seen cell by cell (track.py:1699-1710: the kernel has extent one in space). *)
Definition series_at (s : list img) (y x : Z) : list bool := map (fun f => f y x) s.

(** track.py:1675-1726 fill_time_gaps, structured. The closing acts on every
    cell's series separately; slice t of the result is read back at [t]. *)
Definition fill_time_gaps (regional : bool) (T R ny nx : Z) (mask : img) (s : list img)
  : option (list img) :=
  if T =? 0 then Some s
  else if T + 1 <? 0 then None
  else
    let closed := fun y x => match close_time T (series_at s y x) with Some l => l | None => [] end in
    let s' := map (fun i : nat => (fun y x => nth i (closed y x) false) : img) (seq 0 (length s)) in
    Some (fill_holes regional (R / 2) ny nx mask s').

(** track.py:1288-1299 (run_preprocess): fill holes, then time gaps. *)
Definition preprocess_morph (regional : bool) (T R ny nx : Z) (mask : img) (s : list img)
  : option (list img) :=
  fill_time_gaps regional T R ny nx mask (fill_holes regional R ny nx mask s).

(** ** Unstructured meshes *)

(** neighbours_int after the shift to 0-based indices (track.py:1060): one row of
    three entries per cell, negative when the neighbour is missing. *)
Definition mesh := list (list Z).
(** track.py:1059-1064. *)
Definition row (m : mesh) (i : nat) : list Z := nth i m [].

(** track.py:1094-1115: the columns of row i of the sparse matrix, i.e. its
    non-negative neighbours plus i itself.  All stored values are True. *)
Definition sparse_row (m : mesh) (i : nat) : list nat :=
  i :: map Z.to_nat (filter (fun j => 0 <=? j) (row m i)).

(** reading one cell, track.py:1549-1582. *)
Definition atb (v : list bool) (i : nat) : bool := nth i v false.

(** track.py:5423-5468 sparse_bool_power on one column (one time step). *)
Definition dilate_mesh1 (m : mesh) (v : list bool) : list bool :=
  map (fun i => existsb (atb v) (sparse_row m i)) (seq 0 (length m)).
Fixpoint sparse_power (m : mesh) (n : nat) (v : list bool) : list bool :=
  match n with O => v | S k => sparse_power m k (dilate_mesh1 m v) end.

(** ~bitmap_binary, track.py:1569, 1577. *)
Definition not_all (v : list bool) : list bool := map negb v.
(** bitmap_binary[:, ~mask] = True (track.py:1566, 1574). *)
Definition set_land (mask v : list bool) : list bool :=
  map (fun p => negb (fst p) || snd p) (combine mask v).

(** track.py:1569, 1577. *)
Definition erode_mesh (m : mesh) (R : nat) (v : list bool) : list bool :=
  not_all (sparse_power m R (not_all v)).

(** track.py:1549-1582 binary_open_close on one time step. *)
Definition fill_holes_mesh (m : mesh) (R : nat) (mask v : list bool) : list bool :=
  let v1 := sparse_power m R v in
  let v2 := set_land mask v1 in
  let v3 := erode_mesh m R v2 in
  let v4 := set_land mask v3 in
  let v5 := erode_mesh m R v4 in
  sparse_power m R v5.
