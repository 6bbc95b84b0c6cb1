(** Model of the centroids of objects and events on structured grids.
    Source: /repo/marEx/track.py:2050-2107 (calculate_centroid), 2332-2354 (its
    use) and 3119-3263 (event centroids).

    Cells are numbered row by row as in Partition.v.  Means are exact. *)
From Coq Require Import Qround.
From Verif Require Import Base Filter Overlap Partition.
Open Scope nat_scope.

(** Columns of the cells of a mask, in the order of numpy.nonzero (track.py:2080, 2090). *)
Definition mask_rows (nx : nat) (mask : list bool) : list nat := map (cell_y nx) (points mask).
Definition mask_cols (nx : nat) (mask : list bool) : list nat := map (cell_x nx) (points mask).

(** numpy.mean (track.py:2081, 2095). *)
Definition mean (l : list Q) : Q := (sumQ l / natQ (length l))%Q.

(** near_left_BC and near_right_BC (track.py:2075-2076): a cell in the first,
    last, 100 columns; on narrower grids the slices are the whole grid.  The
    event centroids test x < 100 and x >= nx - 100 (track.py:3239-3240), which is
    the same test. *)
Definition near_left (xs : list nat) : bool := existsb (fun x => Nat.ltb x 100) xs.
Definition near_right (nx : nat) (xs : list nat) : bool := existsb (fun x => Nat.leb (nx - 100) x) xs.

(** Columns right of the middle are moved left of the seam (track.py:2091-2093
    with nx // 2, 3244-3246 with nx / 2: the same for integer columns). *)
Definition seam_col (nx x : nat) : Q := if Nat.ltb (nx / 2) x then (natQ x - natQ nx)%Q else natQ x.
(** Negative centroids are moved back (track.py:2096-2097, 3252-3253). *)
Definition back_in (nx : nat) (c : Q) : Q := if Qltb c 0 then (c + natQ nx)%Q else c.

(** The x-centroid, with the mean passed in (track.py:2085-2105). *)
Definition col_centroid (regional : bool) (nx : nat) (avg : list Q -> Q) (xs : list nat) : Q :=
  if regional then avg (map natQ xs)
  else if near_left xs && near_right nx xs then back_in nx (avg (map (seam_col nx) xs))
  else avg (map natQ xs).

(** calculate_centroid; the original centroid of regionprops is the plain mean
    of the cell coordinates (track.py:2050-2107). *)
Definition calculate_centroid (regional : bool) (nx : nat) (mask : list bool) : Q * Q :=
  (mean (map natQ (mask_rows nx mask)), col_centroid regional nx mean (mask_cols nx mask)).

(** numpy.interp(c, arange(len vals), vals) (track.py:3262-3263). *)
Definition interp (vals : list Q) (c : Q) : Q :=
  let n := length vals in
  if Qle_bool c 0 then nth 0 vals 0%Q
  else if Qle_bool (natQ (n - 1)) c then nth (n - 1) vals 0%Q
  else
    let j := Z.to_nat (Qfloor c) in
    (nth j vals 0 + (nth (S j) vals 0 - nth j vals 0) * (c - natQ j))%Q.

(** numpy.sum(x * areas) / total_area (track.py:3234, 3249, 3256, 3259). *)
Definition wmean (ws xs : list Q) : Q :=
  (sumQ (map (fun p => fst p * snd p)%Q (combine xs ws)) / sumQ ws)%Q.

(** Centroid in pixels and in coordinates of one event at one time (track.py:
    3219-3263); NaN is None: the event has no cell at this time. *)
Definition event_pixel (regional : bool) (nx : nat) (ca : list Q) (mask : list bool) : Q * Q :=
  let ws := map (fun k => nth k ca 0%Q) (points mask) in
  (wmean ws (map natQ (mask_rows nx mask)), col_centroid regional nx (wmean ws) (mask_cols nx mask)).
Definition event_centroid (regional : bool) (nx : nat) (lats lons ca : list Q) (field : list Z) (id : Z)
    : option (Q * Q) :=
  let mask := mask_of id field in
  match points mask with
  | [] => None
  | _ => let c := event_pixel regional nx ca mask in Some (interp lats (fst c), interp lons (snd c))
  end.
(** Per time step, for the IDs marked present (track.py:3155-3159, 3216-3223); the others
    stay NaN. *)
Definition event_centroids (regional : bool) (nx : nat) (lats lons ca : list Q) (field : list Z) (present : list bool)
    : list (option (Q * Q)) :=
  map (fun i => if nth i present false
                then event_centroid regional nx lats lons ca field (Z.of_nat i + 1)%Z else None)
      (seq 0 (length present)).
