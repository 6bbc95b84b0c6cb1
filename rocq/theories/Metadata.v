(** Model of the attributes of the dataset returned by preprocess_data
    (detect.py:711-759), of _get_preprocessing_steps (detect.py:820-857) and of its
    final chunks (detect.py:761-768, 793-799).

    compute_normalised_anomaly builds its dataset without attributes, so the dictionary
    starts empty.  Lists of orders appear in the text as Python prints them. *)
From Coq Require Import String Decimal DecimalString.
From Verif Require Import Base Filter Overlap Partition Detect Climatology Detrend Histogram DetectRun Chunks.
Open Scope string_scope.
Open Scope list_scope.
Open Scope nat_scope.

(** Values of attributes (detect.py:711-759). *)
Inductive attr := AStr (s : string) | AInt (z : option Z) | ANum (q : Q) | ABool (b : bool) | AOrders (l : list Z) | ASteps (l : list string).
(** detect.py:711-759. *)
Definition attrs := list (string * attr).

(** dict.__setitem__ and dict.update: a key keeps its place (detect.py:711-759). *)
Fixpoint set_item (k : string) (v : attr) (d : attrs) : attrs :=
  match d with
  | [] => [(k, v)]
  | (k', v') :: r => if String.eqb k k' then (k, v) :: r else (k', v') :: set_item k v r
  end.
(** detect.py:711-759. *)
Definition update (d e : attrs) : attrs := fold_left (fun d kv => set_item (fst kv) (snd kv) d) e d.
(** detect.py:711-759. *)
Definition get (k : string) (d : attrs) : option attr :=
  match find (fun kv => String.eqb k (fst kv)) d with Some kv => Some (snd kv) | None => None end.

(** str of an int, of None and of a list of ints (detect.py:834-855). *)
Definition show (z : Z) : string := NilZero.string_of_int (Z.to_int z).
(** detect.py:852-855. *)
Definition show_option (z : option Z) : string := match z with Some z => show z | None => "None" end.
(** detect.py:834, 843. *)
Definition show_list (l : list Z) : string := ("[" ++ String.concat ", " (map show l) ++ "]")%string.

(** detrend_orders after detect.py:525-526. *)
Definition orders_of (p : pre_args) : list Z := match p_orders p with None => [1%Z] | Some o => o end.

(** _get_preprocessing_steps (detect.py:833-844). *)
Definition anomaly_steps (s : settings) (std_normalise : bool) (p : pre_args) : list string :=
  if String.eqb (p_method p) "detrend_harmonic" then
    [("Removed polynomial trend orders=" ++ show_list (orders_of p) ++ " & seasonal cycle")%string]
    ++ (if std_normalise then ["Normalised by 30-day rolling STD"] else [])
  else if String.eqb (p_method p) "shifting_baseline" then
    [("Rolling climatology using " ++ show (p_window p) ++ " years")%string; ("Smoothed with " ++ show (Z.of_nat (s_smooth s)) ++ "-day window")%string]
  else if String.eqb (p_method p) "fixed_baseline" then ["Daily climatology computed from full time series"]
  else if String.eqb (p_method p) "detrend_fixed_baseline" then
    [("Removed polynomial trend orders=" ++ show_list (orders_of p))%string; "Daily climatology computed from detrended data"]
  else [].
(** detect.py:846-855. *)
Definition extreme_steps (a : extreme_args) : list string :=
  if String.eqb (a_method a) "global_extreme" then ["Global percentile threshold applied to all days"]
  else if String.eqb (a_method a) "hobday_extreme" then
    match a_spatial a with
    | Some w => [("Day-of-year thresholds with " ++ show_option (a_days a) ++ " day window & " ++ show w ++ " spatial neighbours")%string]
    | None => [("Day-of-year thresholds with " ++ show_option (a_days a) ++ " day window")%string]
    end
  else [].
(** detect.py:820-857. *)
Definition preprocessing_steps (s : settings) (std_normalise : bool) (p : pre_args) : list string :=
  anomaly_steps s std_normalise p ++ extreme_steps (p_extreme p).

(** detect.py:711-759, in order (detect.py:711-728). *)
Definition common_attrs (s : settings) (std_normalise : bool) (p : pre_args) : attrs :=
  [("method_anomaly", AStr (p_method p)); ("method_extreme", AStr (a_method (p_extreme p)));
   ("threshold_percentile", ANum (a_percentile (p_extreme p))); ("preprocessing_steps", ASteps (preprocessing_steps s std_normalise p))].
(** detect.py:730-754. *)
Definition method_attrs (s : settings) (std_normalise : bool) (p : pre_args) : attrs :=
  if String.eqb (p_method p) "detrend_harmonic" then
    [("detrend_orders", AOrders (orders_of p)); ("force_zero_mean", ABool (s_zero_mean s)); ("std_normalise", ABool std_normalise)]
  else if String.eqb (p_method p) "shifting_baseline" then
    [("window_year_baseline", AInt (Some (p_window p))); ("smooth_days_baseline", AInt (Some (Z.of_nat (s_smooth s))))]
  else if String.eqb (p_method p) "fixed_baseline" then []
  else if String.eqb (p_method p) "detrend_fixed_baseline" then
    [("detrend_orders", AOrders (orders_of p)); ("force_zero_mean", ABool (s_zero_mean s))]
  else [].
(** detect.py:711-759. *)
Definition attributes (s : settings) (std_normalise : bool) (p : pre_args) : attrs :=
  let d := update [] (common_attrs s std_normalise p) in
  let d := update d (method_attrs s std_normalise p) in
  let d := update d (if String.eqb (a_method (p_extreme p)) "hobday_extreme" then [("window_days_hobday", AInt (a_days (p_extreme p)))] else []) in
  update d [("method_percentile", AStr (a_method_percentile (p_extreme p))); ("precision", ANum (a_precision (p_extreme p))); ("max_anomaly", ANum (a_max (p_extreme p)))].

(** The chunks of the returned dataset (detect.py:761-768): the spatial dimensions in one
    chunk, time and day of year in chunks of the requested size, by name of the
    dimension or as "time", 10 by default.  Dimensions are given with their names (dask_chunks.get, detect.py:762). *)
Definition lookup_chunk (d : list (string * Z)) (k : string) : option Z :=
  match find (fun kv => String.eqb k (fst kv)) d with Some kv => Some (snd kv) | None => None end.
(** detect.py:761-768. *)
Definition time_chunks (dask_chunks : list (string * Z)) (timedim : string) : Z :=
  match lookup_chunk dask_chunks timedim with
  | Some c => c
  | None => match lookup_chunk dask_chunks "time" with Some c => c | None => 10%Z end
  end.
(** detect.py:761-768. *)
Definition final_chunks (dask_chunks : list (string * Z)) (timedim : string) (dims : names) (method_extreme : string) : list (string * Z) :=
  let spatial := flat_map (fun k => match lookup_name dims k with Some v => [(v, (-1)%Z)] | None => [] end) ["x"; "y"] in
  let c := time_chunks dask_chunks timedim in
  spatial ++ [(timedim, c)] ++ (if String.eqb method_extreme "hobday_extreme" then [("dayofyear", c)] else []).

(** ds.chunk: -1 is one chunk for the whole axis, c > 0 chunks of c and a rest;
    other axes keep their chunks (detect.py:768). *)
Definition split_axis (n : nat) (c : Z) : list nat :=
  if Z.ltb c 1 then [n]
  else let k := Z.to_nat c in repeat k (n / k) ++ (if Nat.eqb (n mod k) 0 then [] else [n mod k]).
(** detect.py:768. *)
Definition rechunked (chunks : list (string * Z)) (a : arr) : arr :=
  mkArr true (map (fun kv => match lookup_chunk chunks (fst kv) with
                             | Some c => (fst kv, split_axis (fold_right Nat.add 0 (snd kv)) c)
                             | None => kv end) (a_axes a)).
(** .compute() (detect.py:793-799): no longer dask-backed. *)
Definition computed (a : arr) : arr := mkArr false (a_axes a).
