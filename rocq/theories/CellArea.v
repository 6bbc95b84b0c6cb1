(** Cell areas of structured grids from [grid_resolution] (track.py:440-487). Reals
    for doubles; the conversion to float32 is not modelled. *)
From Coq Require Import Reals List.
Import ListNotations.
Open Scope R_scope.

(** np.radians (track.py:452-454). *)
Definition radians (d : R) : R := d * PI / 180.
(** R_earth in km (track.py:446). *)
Definition earth_radius : R := 6378.

(** grid_area of a row at latitude [lat] in degrees (track.py:451-458); dlat and dlon
    are both the resolution. *)
Definition grid_area (res lat : R) : R :=
  let lat_r := radians lat in
  let dlat := radians res in
  let dlon := radians res in
  earth_radius ^ 2 * Rabs (sin (lat_r + dlat / 2) - sin (lat_r - dlat / 2)) * dlon.

(** The areas computed for the rows of the grid; all cells of a row have the same
    (track.py:448-466, broadcast along longitude at 3273-3279). *)
Definition grid_areas (res : R) (lats : list R) : list R := map (grid_area res) lats.
(** Their sum over all cells of a grid with [nx] columns, and their mean
    (mean_cell_area, track.py:484: the mean over rows, the areas having no longitude
    dimension). *)
Definition sum_R (l : list R) : R := fold_right Rplus 0 l.
Definition whole_grid (nx : nat) (areas : list R) : R := sum_R (map (fun a => INR nx * a) areas).
Definition mean_cell_area (areas : list R) : R := sum_R areas / INR (length areas).
