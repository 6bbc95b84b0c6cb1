(** Model of centroids and distances on the sphere, used on unstructured meshes.
    Source: /repo/marEx/track.py:2135-2323 (calculate_object_properties),
    3161-3207 (event properties), 5331-5344 and 5386-5420 (great-circle distances).

    Angles are exact real numbers, so this file and what depends on it uses Coq's
    classical reals; float32 rounding is not modelled. *)
From Coq Require Import Reals.
From Verif Require Import Base Filter.
Open Scope R_scope.

(** numpy.radians, numpy.degrees, numpy.clip(x, -1, 1) (track.py:3165-3166). *)
Definition rad (d : R) : R := d * PI / 180.
(** track.py:3200-3201. *)
Definition deg (r : R) : R := r * 180 / PI.
(** track.py:3200. *)
Definition clip1 (x : R) : R := Rmax (-1) (Rmin x 1).

(** numpy.arctan2, without signed zeros (track.py:3201). *)
Definition atan2 (y x : R) : R :=
  if Rlt_dec 0 x then atan (y / x)
  else if Rlt_dec x 0 then (if Rle_dec 0 y then atan (y / x) + PI else atan (y / x) - PI)
  else if Rlt_dec 0 y then PI / 2
  else if Rlt_dec y 0 then - (PI / 2)
  else 0.

(** One cell: area, latitude and longitude in degrees (track.py:3177, 3182). *)
Record geo := mkGeo { g_area : R; g_lat : R; g_lon : R }.
(** track.py:3182-3183. *)
Definition cell_x (c : geo) : R := cos (rad (g_lat c)) * cos (rad (g_lon c)).
(** track.py:3184. *)
Definition cell_y (c : geo) : R := cos (rad (g_lat c)) * sin (rad (g_lon c)).
(** track.py:3185. *)
Definition cell_z (c : geo) : R := sin (rad (g_lat c)).

(** numpy.sum and numpy.add.at over the cells of one object (track.py:3178, 3188-3190). *)
Definition sumR (f : geo -> R) (l : list geo) : R := fold_right (fun c s => f c + s) 0 l.

(** Longitudes outside [-180, 180] are moved by a turn (track.py:2228-2232, 3203-3207). *)
Definition wrap180 (l : R) : R :=
  if Rlt_dec 180 l then l - 360 else if Rlt_dec l (-180) then l + 360 else l.

(** Area-weighted centroid (track.py:2201-2232, 3176-3202): mean of the unit vectors,
    brought back to the sphere. *)
Definition sphere_centroid (l : list geo) : R * R :=
  let x := sumR (fun c => g_area c * cell_x c) l in
  let y := sumR (fun c => g_area c * cell_y c) l in
  let z := sumR (fun c => g_area c * cell_z c) l in
  let n := sqrt (x ^ 2 + y ^ 2 + z ^ 2) in
  let n := if Rlt_dec 0 n then n else 1 in
  (deg (asin (clip1 (z / n))), wrap180 (deg (atan2 (y / n) (x / n)))).

(** Great-circle distance by the haversine formula, in radians (track.py:5338-5342,
    5405-5412); points are (latitude, longitude) in degrees. *)
Definition haversine (p q : R * R) : R :=
  let dlat := rad (fst q) - rad (fst p) in
  let dlon := rad (snd q) - rad (snd p) in
  let a := sin (dlat / 2) ^ 2 + cos (rad (fst p)) * cos (rad (fst q)) * sin (dlon / 2) ^ 2 in
  2 * atan2 (sqrt a) (sqrt (1 - a)).

(** Nearest parent: a scan keeping the first smallest distance (track.py:5400-5416);
    numpy.argmin gives the same (5344). *)
Fixpoint scan_nearest (d : R * R -> R) (ps : list (R * R)) (j best : nat) (least : R) : nat :=
  match ps with
  | [] => best
  | p :: r => if Rlt_dec (d p) least then scan_nearest d r (S j) j (d p) else scan_nearest d r (S j) best least
  end.
Definition nearest_parent (point : R * R) (parents : list (R * R)) : nat :=
  match parents with
  | [] => 0%nat
  | p :: r => scan_nearest (haversine point) r 1 0 (haversine point p)
  end.

(** partition_centroid_unstructured (track.py:5386-5418): every cell of the child gets the
    ID at the index of the nearest row; the other cells keep 0.  Reading past the
    end of child_ids is unchecked in compiled code; the model gives [junk]. *)
Definition centroid_labels (junk : Z) (child : list bool) (parents : list (R * R)) (child_ids : list Z)
    (points : list (R * R)) : list Z :=
  map (fun cp : bool * (R * R) => if fst cp then nth (nearest_parent (snd cp) parents) child_ids junk else 0%Z)
    (combine child points).

(** The array of parent centroids has ten rows; those not used hold -1.0e10
    (track.py:3959, 4014-4021). *)
Definition filler : R * R := (-10000000000, -10000000000).
Definition parent_rows (centroids : list (R * R)) : list (R * R) :=
  firstn 10 (centroids ++ repeat filler 10).

(** ** The object table (track.py:2135-2323) *)

(** Cells carrying an ID (track.py:3171). *)
Definition cells_of (id : Z) (ids : list Z) (cells : list geo) : list geo :=
  map snd (filter (fun p => Z.eqb (fst p) id) (combine ids cells)).
(** One entry: area and centroid (track.py:2201-2232, 3176-3207). *)
Definition object_entry (ids : list Z) (cells : list geo) (id : Z) : R * (R * R) :=
  (sumR g_area (cells_of id ids cells), sphere_centroid (cells_of id ids cells)).

(** Buffer for the IDs of a time step (track.py:2146-2157); max_ID is one more than the
    largest ID. *)
Definition id_buffer_size (largest : Z) (steps : nat) : nat :=
  let max_id := Z.to_nat (largest + 1) in
  Nat.max (max_id / steps * 4 + 2) max_id.

(** object_properties_chunk (track.py:2159-2254) with buffers: assigning more values than
    the buffer holds raises. Entries beyond the IDs are zeros. *)
Definition properties_chunk (size : nat) (ids : list Z) (cells : list geo) : option (list (Z * (R * (R * R)))) :=
  let u := unique_pos ids in
  if Nat.leb (length u) size
  then Some (map (fun id => (id, object_entry ids cells id)) u ++ repeat (0%Z, (0, (0, 0))) (size - length u))
  else None.

(** All time steps; entries with a positive ID are kept (track.py:2285-2299).  With one
    time step the buffers are left out (2258-2266), which changes nothing. *)
Fixpoint all_some {A} (l : list (option A)) : option (list A) :=
  match l with
  | [] => Some []
  | o :: r => match o, all_some r with Some a, Some b => Some (a :: b) | _, _ => None end
  end.
Definition mesh_properties (fields : list (list Z)) (cells : list geo) : option (list (Z * (R * (R * R)))) :=
  let size := id_buffer_size (maxZ (map maxZ fields)) (length fields) in
  option_map (fun chunks => filter (fun e => Z.ltb 0 (fst e)) (concat chunks))
    (all_some (map (fun f => properties_chunk size f cells) fields)).

(** ** Areas and centroids of the events at one time (track.py:3149-3207) *)
(** For every event the area and centroid of its cells, or NaN if it is not
    marked present or has no cell (track.py:3149-3210). *)
Definition event_entries (event_ids : list Z) (present : list bool) (ids : list Z) (cells : list geo)
    : list (option (R * (R * R))) :=
  map (fun ep : Z * bool =>
         if snd ep && existsb (Z.eqb (fst ep)) ids then Some (object_entry ids cells (fst ep)) else None)
    (combine event_ids present).
