(** Model of the percentile thresholds of detect.py: _rolling_histogram_quantile
    (2337-2431), _compute_histogram_quantile_2d (2434-2606),
    _compute_histogram_quantile_1d (2609-2737), _identify_extremes_constant
    (2745-2795) and _identify_extremes_hobday (1798-1938).

    Exact arithmetic instead of float32/float64; counts are unbounded.  A field is
    indexed [da t cell] with cell = y * nx + x; arrays that only pass through
    pad/rolling/isel are functions of their indices.  Chunking, warnings and
    temporary checkpoints are not modelled. *)
From Coq Require Import Qround.
From Verif Require Import Base Filter Overlap Partition Detect Climatology.
Open Scope nat_scope.

(** ** Bins (detect.py:2473-2480, 2642-2644, 2654-2656): [-inf] followed by
    arange(-precision, max_anomaly + precision, precision). *)
Definition n_edges (p mx : Q) : nat := Z.to_nat (Qceiling ((mx + p - - p) / p)).
Definition edge (p : Q) (k : nat) : Q := (- p + natQ k * p)%Q.
Definition edges (p mx : Q) : list Q := map (edge p) (seq 0 (n_edges p mx)).
(** bin_edges[j] for j > 0 is [edge (j-1)]; bin b lies between bin_edges[b] and
    bin_edges[b+1]; there are as many bins as finite edges (detect.py:2479-2480, 2655-2656). *)
Definition centre (p : Q) (b : nat) : Q := match b with O => 0%Q | S k => ((edge p (S k) + edge p k) / 2)%Q end.
(** detect.py:2479-2480, 2655-2656. *)
Definition centres (p mx : Q) : list Q := map (centre p) (seq 0 (n_edges p mx)).
(** np.digitize(v, bin_edges) - 1: [-inf] counts as one edge below v (detect.py:2496). *)
Definition digitize (finite_edges : list Q) (v : Q) : nat := count (fun e => Qle_bool e v) finite_edges.
(** detect.py:2496, 2510-2520. *)
Definition in_bin (finite_edges : list Q) (b : nat) (v : option Q) : bool :=
  match v with Some q => Nat.eqb (digitize finite_edges q) b | None => false end.

(** ** Two-dimensional histograms. *)
(** hist_raw[dayofyear, bin] of one cell (detect.py:2509-2520); expected groups are the days
    1..366 and the bins, so values beyond the last edge and NaN are not counted. *)
Definition hist_raw (p mx : Q) (doys : list nat) (values : series) (d b : nat) : nat :=
  count (fun x => Nat.eqb (fst x) d && in_bin (edges p mx) b (snd x)) (combine doys values).

(** pad(mode="wrap"), rolling(center=True, min_periods=1).sum(), isel (detect.py:2523-2540),
    along one axis of length [n]. *)
Definition pad_wrap (n k : nat) (f : nat -> nat) : nat -> nat :=
  fun i => f (Z.to_nat ((Z.of_nat i - Z.of_nat k) mod Z.of_nat n)).
Definition rolling_sum (len w : nat) (f : nat -> nat) : nat -> nat :=
  fun i => sumN (map f (filter (fun j => Nat.leb (i - w / 2) j && Nat.leb j (i + (w - 1 - w / 2))) (seq 0 len))).
Definition pool_columns (nx ws : nat) (f : nat -> nat) : nat -> nat :=
  let k := ws / 2 in fun x => rolling_sum (nx + 2 * k) ws (pad_wrap nx k f) (x + k).
Definition pool_space (ny nx : nat) (ws : option nat) (f : nat -> nat -> nat) : nat -> nat -> nat :=
  match ws with
  | Some w => if Nat.ltb 1 w then fun y x => rolling_sum ny w (fun y' => pool_columns nx w (f y') x) y else f
  | None => f
  end.

(** _rolling_histogram_quantile.  Slices hist[-k:] and hist[:k] (detect.py:2366-2372). *)
Inductive shape_error := ShapeMismatch.
(** hist[-k:], detect.py:2368. *)
Definition last_rows {A} (k : nat) (l : list A) : list A := if Nat.eqb k 0 then l else skipn (length l - k) l.
(** np.sum(windowed_view, axis=-1), detect.py:2372. *)
Fixpoint zip_add (a b : list nat) : list nat :=
  match a, b with x :: r, y :: s => (x + y) :: zip_add r s | _, _ => [] end.
(** detect.py:2372. *)
Definition sum_rows (n_bins : nat) (rows : list (list nat)) : list nat := fold_right zip_add (repeat 0 n_bins) rows.
(** sliding_window_view, detect.py:2371. *)
Definition sliding {A} (w : nat) (l : list A) : list (list A) := map (fun i => firstn w (skipn i l)) (seq 0 (S (length l) - w)).
(** detect.py:2366-2372. *)
Definition windowed (w n_bins : nat) (hist : list (list nat)) : list (list nat) :=
  let k := w / 2 in map (sum_rows n_bins) (sliding w (last_rows k hist ++ hist ++ firstn k hist)).

(** np.cumsum, detect.py:2382. *)
Fixpoint cumsum_from (acc : nat) (l : list nat) : list nat :=
  match l with [] => [] | x :: r => (acc + x) :: cumsum_from (acc + x) r end.
(** detect.py:2364, 2657. *)
Definition eps : Q := (1 # 10000000000)%Q.
(** one day, detect.py:2380-2431. *)
Definition row_quantile (q : Q) (bin_centres : list Q) (row : list nat) : option Q :=
  let n_bins := length row in
  let cum := cumsum_from 0 row in
  let total := last cum 0 in
  let position := (q * natQ total)%Q in
  let found := if Nat.eqb total 0 then 0 else count (fun c => Qle_bool (natQ c) position) cum in
  let upper := Nat.min found (n_bins - 1) in
  let lower := upper - 1 in
  let count_lower := natQ (nth lower cum 0) in
  let count_upper := natQ (nth upper cum 0) in
  let bin_lower := nth lower bin_centres 0%Q in
  let bin_upper := nth upper bin_centres 0%Q in
  let diff := (count_upper - count_lower)%Q in
  let frac := if Qltb eps diff then ((position - count_lower) / diff)%Q else (1 # 2)%Q in
  if Nat.eqb total 0 then None
  else if Nat.eqb upper 0 then Some (nth 0 bin_centres 0%Q)
  else Some (bin_lower + frac * (bin_upper - bin_lower))%Q.
(** The 366 rows of results are combined with arrays of n_doy entries (2392-2406,
    2426): any other number of windows is a broadcasting or index error. *)
Definition rolling_histogram_quantile (w : nat) (q : Q) (bin_centres : list Q) (hist : list (list nat)) : result shape_error (list (option Q)) :=
  let rows := windowed w (length bin_centres) hist in
  if Nat.eqb (length rows) (length hist) then Ok (map (row_quantile q bin_centres) rows) else Err ShapeMismatch.

(** Missing where the first step is missing; raised to bin_edges[3] (detect.py:2575-2604). *)
Definition at_least (lo : Q) (t : option Q) : option Q :=
  match t with Some v => Some (if Qltb v lo then lo else v) | None => None end.
Definition lower_bound (p : Q) : Q := edge p 2.
Definition hobday_thresholds (p mx q : Q) (w : nat) (ws : option nat) (ny nx : nat) (doys : list nat) (da : nat -> nat -> option Q)
    (y x : nat) : result shape_error (list (option Q)) :=
  let n := length doys in
  let values c := map (fun t => da t c) (seq 0 n) in
  let pooled d b := pool_space ny nx ws (fun y' x' => hist_raw p mx doys (values (y' * nx + x')) d b) y x in
  let hist := map (fun d => map (pooled d) (seq 0 (n_edges p mx))) (seq 1 366) in
  bind (rolling_histogram_quantile w q (centres p mx) hist) (fun ts =>
  Ok (map (fun t => match da 0 (y * nx + x) with Some _ => at_least (lower_bound p) t | None => None end) ts)).
(** da >= threshold of the day (detect.py:1916-1919). *)
Definition exceeds (v t : option Q) : bool := match v, t with Some a, Some b => Qle_bool b a | _, _ => false end.
Definition hobday_extreme (thresholds : list (option Q)) (doy : nat) (v : option Q) : bool := exceeds v (nth (doy - 1) thresholds None).

(** ** One-dimensional histogram.  xhistogram includes the last edge by moving it up
    by 1e-8 (detect.py:2644-2647). *)
Definition edges_1d (p mx : Q) : list Q :=
  let n := n_edges p mx in map (fun k => if Nat.eqb (S k) n then (edge p k + (1 # 100000000))%Q else edge p k) (seq 0 n).
(** detect.py:2647. *)
Definition hist_1d (p mx : Q) (values : series) : list nat :=
  map (fun b => count (in_bin (edges_1d p mx) b) values) (seq 0 (n_edges p mx)).
(** argmax of a boolean list: the first True, 0 if there is none (detect.py:2662). *)
Fixpoint first_true_from (i : nat) (l : list bool) : nat :=
  match l with [] => 0 | b :: r => if b then i else first_true_from (S i) r end.
(** detect.py:2662, 2673. *)
Definition argmax (l : list bool) : nat := first_true_from 0 l.
(** xr.ufuncs.fabs, detect.py:2692-2696. *)
Definition Qabs' (x : Q) : Q := if Qltb x 0 then (- x)%Q else x.
(** detect.py:2649-2704. *)
Definition quantile_1d (q : Q) (bin_centres : list Q) (hist : list nat) : Q :=
  let n := length bin_centres in
  let hist_sum := (natQ (sumN hist) + eps)%Q in
  let cdf := map (fun c => (natQ c / hist_sum)%Q) (cumsum_from 0 hist) in
  let upper0 := argmax (map (fun c => Qle_bool (q - eps) c) cdf) in
  let target := nth (if Nat.ltb 1 upper0 then upper0 - 1 else 0) cdf 0%Q in
  let lower0 := argmax (map (fun c => Qltb target c) cdf) in
  let lower := if Nat.ltb (n - 2) lower0 then n - 2 else lower0 in
  let upper := if Nat.ltb upper0 1 then 1 else if Nat.ltb (n - 1) upper0 then n - 1 else upper0 in
  let cdf_lower := nth lower cdf 0%Q in
  let cdf_upper := nth upper cdf 0%Q in
  let bin_lower := nth lower bin_centres 0%Q in
  let bin_upper := nth upper bin_centres 0%Q in
  let denom := (cdf_upper - cdf_lower)%Q in
  let exact_match := Qltb (Qabs' (cdf_lower - q)) eps in
  let zero_denom := Qle_bool (Qabs' denom) eps in
  let frac := ((q - cdf_lower) / (if Qltb eps (Qabs' denom) then denom else 1))%Q in
  if zero_denom && negb exact_match then ((bin_lower + bin_upper) / 2)%Q
  else if exact_match then bin_lower
  else (bin_lower + frac * (bin_upper - bin_lower))%Q.
(** Missing if any value is missing (detect.py:2706-2708). *)
Definition global_threshold (p mx q : Q) (values : series) : option Q :=
  if existsb (fun v => match v with None => true | Some _ => false end) values then None
  else at_least (lower_bound p) (Some (quantile_1d q (centres p mx) (hist_1d p mx values))).
Definition global_extreme (threshold v : option Q) : bool := exceeds v threshold.

(** ** Exact thresholds: DataArray.quantile / np.nanpercentile, linear interpolation
    over the available values (detect.py:2771, 1869-1871). *)
Fixpoint insertQ (x : Q) (l : list Q) : list Q := match l with [] => [x] | y :: r => if Qle_bool x y then x :: l else y :: insertQ x r end.
(** detect.py:2771, 1869-1871. *)
Definition sortQ (l : list Q) : list Q := fold_right insertQ [] l.
(** detect.py:2771, 1869-1871. *)
Definition quantile (q : Q) (l : list Q) : option Q :=
  match l with
  | [] => None
  | _ =>
    let s := sortQ l in
    let pos := (q * natQ (length l - 1))%Q in
    let lo := Z.to_nat (Qfloor pos) in
    let a := nth lo s 0%Q in
    let b := nth (Nat.min (S lo) (length l - 1)) s 0%Q in
    Some (a + (b - a) * (pos - inject_Z (Qfloor pos)))%Q
  end.
(** detect.py:2771. *)
Definition exact_threshold (q : Q) (values : series) : option Q := quantile q (present values).
(** rolling(time=w, center=True).construct("window") grouped by day (detect.py:1861-1871): for
    every step of day d, the w values around it, missing beyond the ends. *)
Definition window_values (w : nat) (values : series) (t : nat) : series :=
  map (fun k => if Nat.ltb (t + k) (w / 2) then None else nth (t + k - w / 2) values None) (seq 0 w).
Definition exact_day_threshold (q : Q) (w : nat) (doys : list nat) (values : series) (d : nat) : option Q :=
  quantile q (present (flat_map (fun t => if Nat.eqb (nth t doys 0) d then window_values w values t else []) (seq 0 (length doys)))).
