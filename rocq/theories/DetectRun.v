(** Model of preprocess_data from input to result (detect.py:519-817), composed of
    the checks (Detect.v), the anomalies (Climatology.v, Detrend.v) and the
    thresholds (Histogram.v).  Standardised anomalies (668-700) are in
    Standardised.v; checkpoints, metadata and chunking are not part of it.

    Cells are numbered y * nx + x, with ny = 1 on a mesh.  Infinite values are only
    possible on masked cells and are treated as missing. *)
From Coq Require Import String.
From Verif Require Import Base Filter Overlap Partition Detect Climatology Detrend Histogram.
Open Scope nat_scope.

(** detect.py:1545-1546, 1972. *)
Record calendar := mkCal { c_years : list Z; c_doys : list nat; c_decimal : list Q }.
(** smooth_days_baseline, force_zero_mean (detect.py:295, 300). *)
Record settings := mkSettings { s_smooth : nat; s_zero_mean : bool }.

(** np.isfinite, detect.py:222. *)
Definition to_option (v : value) : option Q := match v with Finite q => Some q | _ => None end.
(** detect.py:574-592. *)
Definition cell_series (da : list (list value)) (c : nat) : series := map (fun step => to_option (nth c step NaN)) da.
(** isel(time=keep) (detect.py:621-622). *)
Definition select {A} (keep : list bool) (l : list A) : list A := map snd (filter fst (combine keep l)).

(** compute_normalised_anomaly for one cell (detect.py:1016-1036). *)
Definition anomaly_series (pinv : matrix -> matrix) (harmonics : list (Q -> Q)) (m : anomaly) (orders : list nat) (window : Z)
    (cal : calendar) (s : settings) (data : series) : series :=
  match m with
  | ADetrend => detrend pinv harmonics (c_decimal cal) orders true (s_zero_mean s) data
  | AShifting => shifting_baseline window (s_smooth s) (c_years cal) (c_doys cal) data
  | AFixed => fixed_baseline (c_doys cal) data
  | ADetrendFixed => detrend_fixed_baseline pinv harmonics (c_decimal cal) orders (s_zero_mean s) (c_doys cal) data
  end.

Inductive run_err :=
  Early (e : pre_err)
| ZeroChunk                     (* ZeroDivisionError in da.chunk (detect.py:2768) *)
| BadWindow                     (* shape error of the windowed histogram (detect.py:2392-2426) *)
| MissingCoordinate (k : string)  (* KeyError (detect.py:798-799) *)
| NotModelled.                  (* no time step left, or a day window below 1 *)

(** The chunk size for exact percentiles on meshes (detect.py:2765):
    100 * int(sqrt(n) * 1.5 / 100). *)
Definition mesh_chunk (n : nat) : Z := (100 * Z.sqrt (9 * Z.of_nat n / 40000))%Z.

(** identify_extremes: thresholds by cell and day of year (detect.py:1412-1443). *)
Definition run_thresholds (has_y : bool) (ny nx : nat) (doys : list nat) (anom : nat -> series) (pl : plan)
    : result run_err (nat -> nat -> option Q) :=
  match pl with
  | GlobalExact q => if has_y || Z.ltb 0 (mesh_chunk (ny * nx)) then Ok (fun c _ => exact_threshold q (anom c)) else Err ZeroChunk
  | GlobalApprox q p mx => Ok (fun c _ => global_threshold p mx q (anom c))
  | HobdayExact q d =>
    if Z.ltb d 1 then Err NotModelled else Ok (fun c day => exact_day_threshold q (Z.to_nat d) doys (anom c) day)
  | HobdayApprox q p mx d ws =>
    if Z.ltb d 1 then Err NotModelled
    else
      let at_cell c := hobday_thresholds p mx q (Z.to_nat d) (option_map Z.to_nat ws) ny nx doys (fun t c' => nth t (anom c') None) (c / nx) (c mod nx) in
      (* the shape error does not depend on the cell *)
      match at_cell 0 with
      | Err _ => Err BadWindow
      | Ok _ => Ok (fun c day => match at_cell c with Ok ts => nth (day - 1) ts None | Err _ => None end)
      end
  end.

(** The variables of the returned dataset (detect.py:631, 663-664). *)
Record dataset := mkData {
  d_years : list Z; d_doys : list nat;            (* of its time steps *)
  d_anomaly : nat -> series;                      (* by cell *)
  d_mask : nat -> bool;
  d_threshold : nat -> nat -> option Q;           (* by cell and day of year *)
  d_extreme : nat -> nat -> bool }.               (* by time step and cell *)

(** detect.py:519-817. *)
Definition preprocess_data (pinv : matrix -> matrix) (harmonics : list (Q -> Q)) (da_dims da_coords : list string) (dask : bool)
    (ny nx : nat) (da : list (list value)) (cal : calendar) (s : settings) (p : pre_args) : result run_err dataset :=
  match preprocess_plan da_dims da_coords dask (ny * nx) da (c_years cal) p,
        infer_dims_coords da_dims da_coords (p_dims p) (p_coords p) with
  | Err e, _ => Err (Early e)
  | _, Err e => Err (Early (PreDet e))
  | Ok (m, keep, pl), Ok (dims, coords) =>
    let orders := map Z.to_nat (match p_orders p with None => [1%Z] | Some o => o end) in
    let anom c := select keep (anomaly_series pinv harmonics m orders (p_window p) cal s (cell_series da c)) in
    let doys := select keep (c_doys cal) in
    match doys with
    | [] => Err NotModelled
    | _ =>
      bind (run_thresholds (has_name dims "y") ny nx doys anom pl) (fun thr =>
      if negb (has_name coords "x") then Err (MissingCoordinate "x")
      else if negb (has_name coords "y") then Err (MissingCoordinate "y")
      else Ok (mkData (select keep (c_years cal)) doys anom (fun c => ocean (cell_series da c)) thr
                 (fun t c => exceeds (nth t (anom c) None) (thr c (nth t doys 0)))))
    end
  end.
