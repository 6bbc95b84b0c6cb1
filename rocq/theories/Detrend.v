(** Model of _compute_anomaly_detrended (detect.py 1976-2210), add_decimal_year
    (1946-1973) and _compute_anomaly_detrend_fixed_baseline (2278-2334), for the
    time series of one cell.

    Exact arithmetic; float32 casts are not modelled.  np.linalg.pinv and the four
    harmonics sin, cos (2 pi y), sin, cos (4 pi y) are arguments. *)
From Verif Require Import Base Filter Overlap Partition Detect Climatology.
Open Scope nat_scope.

(** add_decimal_year, a date being a year and the days elapsed in it (detect.py:1967-1970). *)
Definition leap (y : Z) : bool := (Z.eqb (y mod 4) 0 && negb (Z.eqb (y mod 100) 0)) || Z.eqb (y mod 400) 0.
(** detect.py:1970. *)
Definition year_duration (y : Z) : Z := if leap y then 366 else 365.
(** detect.py:1972. *)
Definition decimal_year (y elapsed : Z) : Q := (inject_Z y + inject_Z elapsed / inject_Z (year_duration y))%Q.

Notation matrix := (list (list Q)).
(** model[i, j], detect.py:2077. *)
Definition entry (m : matrix) (i j : nat) : Q := nth j (nth i m []) 0%Q.
(** np.mean, detect.py:2061, 2081. *)
Definition mean (l : list Q) : Q := (sumQ l / natQ (length l))%Q.
(** x ** order, detect.py:2063. *)
Fixpoint powQ (x : Q) (n : nat) : Q := match n with O => 1%Q | S k => (x * powQ x k)%Q end.

(** model_components (detect.py:2055-2077). *)
Definition model_components (harmonics : list (Q -> Q)) (dy : list Q) (orders : list nat) (remove_harmonics : bool) : matrix :=
  let m := mean dy in
  map (fun _ => 1%Q) dy
  :: map (fun order => map (fun y => powQ (y - m) order) dy) orders
  ++ (if remove_harmonics then map (fun h => map h dy) harmonics else []).
(** Orthogonalisation against the constant (detect.py:2080-2084). *)
Definition centred (components : matrix) : matrix :=
  match components with
  | [] => []
  | c0 :: rest => c0 :: map (fun c => map (fun p => fst p - mean c * snd p)%Q (combine c c0)) rest
  end.

(** model_da.dot(pmodel_da.dot(da)) (detect.py:2120-2139): [model] has a row for each
    component, [pmodel] a row for each time step. *)
Definition coefficient (pmodel : matrix) (x : list Q) (j : nat) : Q :=
  sumQ (map (fun s => entry pmodel s j * nth s x 0)%Q (seq 0 (length x))).
Definition fitted (model pmodel : matrix) (x : list Q) (t : nat) : Q :=
  sumQ (map (fun j => entry model j t * coefficient pmodel x j)%Q (seq 0 (length model))).
Definition residual (model pmodel : matrix) (x : list Q) : list Q :=
  map (fun t => nth t x 0 - fitted model pmodel x t)%Q (seq 0 (length x)).
Definition zero_mean (x : list Q) : list Q := map (fun v => v - mean x)%Q x.
Definition detrend_values (pinv : matrix -> matrix) (harmonics : list (Q -> Q)) (dy : list Q) (orders : list nat)
    (remove_harmonics force_zero_mean : bool) (x : list Q) : list Q :=
  let model := centred (model_components harmonics dy orders remove_harmonics) in
  let r := residual model (pinv model) x in
  if force_zero_mean then zero_mean r else r.
(** A dot product with a NaN is NaN, so one missing value leaves no coefficient (detect.py:2121, 2135). *)
Definition detrend (pinv : matrix -> matrix) (harmonics : list (Q -> Q)) (dy : list Q) (orders : list nat)
    (remove_harmonics force_zero_mean : bool) (data : series) : series :=
  if forallb (fun v => match v with Some _ => true | None => false end) data
  then map Some (detrend_values pinv harmonics dy orders remove_harmonics force_zero_mean (present data))
  else map (fun _ => None) data.

(** _compute_anomaly_detrend_fixed_baseline (detect.py:2315-2332). *)
Definition detrend_fixed_baseline (pinv : matrix -> matrix) (harmonics : list (Q -> Q)) (dy : list Q) (orders : list nat)
    (force_zero_mean : bool) (doys : list nat) (data : series) : series :=
  fixed_baseline doys (detrend pinv harmonics dy orders false force_zero_mean data).

(** std_normalise (detect.py:2171-2192): the square of STD with its labels.  std over the
    steps of each day present (ddof 0), wrap padding by 16 (labels too), centred
    rolling mean over 30, isel(slice(16, 366 + 16)).  The square root is left out. *)
Definition variance (l : series) : option Q :=
  match nanmean l with
  | None => None
  | Some m => nanmean (map (fun v => match v with Some x => Some ((x - m) * (x - m))%Q | None => None end) l)
  end.
Definition day_variance (doys : list nat) (data : series) (d : nat) : option Q :=
  variance (map snd (filter (fun p => Nat.eqb (fst p) d) (combine doys data))).
Definition days_present (doys : list nat) : list nat := filter (fun d => existsb (Nat.eqb d) doys) (seq 1 366).
(** pad(mode="wrap") by [k] on both sides of a list of [m] entries (detect.py:2185). *)
Definition wrap_index (m k i : nat) : nat := Z.to_nat ((Z.of_nat i - Z.of_nat k) mod Z.of_nat m).
(** detect.py:2185. *)
Definition wrap_pad {A} (d : A) (k : nat) (l : list A) : list A :=
  map (fun i => nth (wrap_index (length l) k i) l d) (seq 0 (length l + 2 * k)).
(** detect.py:2175-2186. *)
Definition std_table (doys : list nat) (data : series) : list (nat * option Q) :=
  let days := days_present doys in
  let labels := wrap_pad 0 16 days in
  let padded := wrap_pad None 16 (map (day_variance doys data) days) in
  firstn 366 (skipn 16 (combine labels (rolling_mean 30 padded))).
