(** Model of preprocess_data(std_normalise=True): the standardised anomalies of
    _compute_anomaly_detrended (detect.py:2172-2207) and their extremes
    (detect.py:667-696).

    np.sqrt is the argument [root]; the rest is exact.  Rechunking and checkpoints
    are not modelled.  Thresholds of standardised anomalies come from the same
    identify_extremes call as the plain ones. *)
From Coq Require Import String.
From Verif Require Import Base Filter Overlap Partition Detect Climatology Detrend Histogram DetectRun.
Open Scope nat_scope.

(** std_rolling (detect.py:2175-2186) by day of year, from the squared table of Detrend.v. *)
Definition rolling_std (root : Q -> Q) (doys : list nat) (data : series) (day : nat) : option Q :=
  match find (fun row => Nat.eqb (fst row) day) (std_table doys data) with
  | Some (_, Some v) => Some (root v)
  | _ => None
  end.
(** std_rolling.where(std_rolling > 1e-10, nan), then the quotient of the groups
    (detect.py:2188-2192). *)
Definition smallest_std : Q := (1 # 10000000000)%Q.
(** detect.py:2188-2192. *)
Definition odiv (a s : option Q) : option Q :=
  match a, s with Some x, Some d => if Qltb smallest_std d then Some (x / d)%Q else None | _, _ => None end.
(** detect.py:2188-2192. *)
Definition standardise (root : Q -> Q) (doys : list nat) (data : series) : series :=
  map (fun p => odiv (snd p) (rolling_std root doys data (fst p))) (combine doys data).
(** groupby(labels 1 ... 366) / std_rolling_safe aligns the labels of the table with
    1 ... 366: an index with duplicates cannot be reindexed (ValueError) (detect.py:2192). *)
Fixpoint has_duplicates (l : list nat) : bool :=
  match l with [] => false | x :: r => existsb (Nat.eqb x) r || has_duplicates r end.
(** detect.py:2172-2186. *)
Definition std_labels (doys : list nat) : list nat := map fst (std_table doys []).

(** detect.py:2192. *)
Inductive std_err := Run (e : run_err) | DuplicateDays.

(** dat_stn, STD, thresholds_stn, extreme_events_stn (detect.py:683-696). *)
Record standardised := mkStd {
  s_anomaly : nat -> series; s_std : nat -> nat -> option Q;
  s_threshold : nat -> nat -> option Q; s_extreme : nat -> nat -> bool }.

(** the errors of preprocess_data, detect.py:519-817. *)
Definition in_run {A} (r : result run_err A) : result std_err A := match r with Ok a => Ok a | Err e => Err (Run e) end.

(** detect.py:574-696, 2172-2207. *)
Definition preprocess_std (root : Q -> Q) (pinv : matrix -> matrix) (harmonics : list (Q -> Q)) (da_dims da_coords : list string) (dask : bool)
    (ny nx : nat) (da : list (list value)) (cal : calendar) (s : settings) (std_normalise : bool) (p : pre_args)
    : result std_err (dataset * option standardised) :=
  let plain := preprocess_data pinv harmonics da_dims da_coords dask ny nx da cal s p in
  match preprocess_plan da_dims da_coords dask (ny * nx) da (c_years cal) p,
        infer_dims_coords da_dims da_coords (p_dims p) (p_coords p) with
  | Ok (ADetrend, _, pl), Ok (dims, _) =>
    if std_normalise then
      match c_doys cal with
      | [] => Err (Run NotModelled)
      | doys =>
        if has_duplicates (std_labels doys) then Err DuplicateDays
        else
          bind (in_run plain) (fun ds =>
          let stn c := standardise root doys (d_anomaly ds c) in
          bind (in_run (run_thresholds (has_name dims "y") ny nx doys stn pl)) (fun thr =>
          Ok (ds, Some (mkStd stn (fun c => rolling_std root doys (d_anomaly ds c)) thr
                          (fun t c => exceeds (nth t (stn c) None) (thr c (nth t doys 0)))))))
      end
    else bind (in_run plain) (fun ds => Ok (ds, None))
  | _, _ => bind (in_run plain) (fun ds => Ok (ds, None))
  end.
