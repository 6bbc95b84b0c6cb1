(** Model of the checks of preprocess_data, compute_normalised_anomaly and
    identify_extremes.  Source: /repo/marEx/detect.py. *)
From Coq Require Import String.
From Verif Require Import Base.
Open Scope string_scope.

(** Exceptions: class and, for marEx's own, which check raised it; texts are not
    modelled (detect.py:53-202, 1208-1443). *)
Inductive det_err :=
  DKeyError (k : string) | DIndexError | DTypeError | DDataValidation (what : string) | DConfig (what : string).

(** ** Dimensions and coordinates (detect.py:53-202)

    A mapping is the list of its items in order. *)
Notation names := (list (string * string)).
Fixpoint lookup_name (m : names) (k : string) : option string :=
  match m with [] => None | (k', v) :: r => if String.eqb k' k then Some v else lookup_name r k end.
Definition has_name (m : names) (k : string) : bool := match lookup_name m k with Some _ => true | None => false end.
Definition mem_str (x : string) (l : list string) : bool := existsb (String.eqb x) l.

(** _validate_dimensions_exist, _validate_coordinates_exist: the missing entries (detect.py:69-72, 108-111). *)
Definition missing (available : list string) (m : names) : names :=
  filter (fun p => negb (mem_str (snd p) available)) m.

(** _infer_dims_coords (detect.py:131-202). *)
Definition infer_dims_coords (da_dims da_coords : list string) (dimensions coordinates : option names)
  : result det_err (names * names) :=
  let dims := match dimensions with None => [("time", "time"); ("x", "lon"); ("y", "lat")] | Some m => m end in
  let dims := if has_name dims "time" then dims else ("time", "time") :: dims in
  bind
    match coordinates with
    | None =>
      if has_name dims "y" then Ok dims
      else match lookup_name dims "x" with   (* the f-string of the message (detect.py:178) *)
           | None => Err (DKeyError "x")
           | Some _ => Err (DDataValidation "coordinates")
           end
    | Some c =>
      if has_name c "time" then Ok c
      else Ok (("time", match lookup_name dims "time" with Some t => t | None => "time" end) :: c)
    end
    (fun coords =>
       match missing da_dims dims with
       | _ :: _ => Err (DDataValidation "missing dimensions")
       | [] =>
         match missing da_coords coords with
         | _ :: _ => Err (DDataValidation "missing coordinates")
         | [] => Ok (dims, coords)
         end
       end).

(** ** Data values (detect.py:205-279)

    A field is its time steps, each the list of its cells. *)
Inductive value := Finite (q : Q) | NaN | Infinite.
Definition is_finite (v : value) : bool := match v with Finite _ => true | _ => false end.

Inductive data_report :=
  NoValidData | InvalidValues (total locations worst : nat) | NoFirstStep.

(** [n] is the number of cells (detect.py:243-244). *)
Definition invalid_per_location (n : nat) (da : list (list value)) : list nat :=
  map (fun i => count (fun step => negb (is_finite (nth i step NaN))) da) (seq 0 n).
(** detect.py:221-279. *)
Definition validate_data_values (n : nat) (da : list (list value)) : result data_report unit :=
  match da with
  | [] => Err NoFirstStep
  | first :: _ =>
    let mask := map (fun i => is_finite (nth i first NaN)) (seq 0 n) in
    if existsb (fun b => b) mask then
      let inv := map (fun p => if snd p : bool then fst p else 0%nat) (combine (invalid_per_location n da) mask) in
      let worst := fold_right Nat.max 0%nat inv in
      if Nat.ltb 0 worst then Err (InvalidValues (fold_right Nat.add 0%nat inv) (count (Nat.ltb 0) inv) worst) else Ok tt
    else Err NoValidData
  end.

(** ** compute_normalised_anomaly (1011-1056) with the check of the detrending
    orders (detect.py:2014-2041) *)
Inductive anomaly := ADetrend | AShifting | AFixed | ADetrendFixed.
Definition anomaly_method (method : string) (orders : list Z) : result det_err anomaly :=
  let ordered a := if match orders with [] => true | _ => existsb (fun o => Z.ltb o 1) orders end
                   then Err (DConfig "detrend_orders") else Ok a in
  if String.eqb method "detrend_harmonic" then ordered ADetrend
  else if String.eqb method "shifting_baseline" then Ok AShifting
  else if String.eqb method "fixed_baseline" then Ok AFixed
  else if String.eqb method "detrend_fixed_baseline" then ordered ADetrendFixed
  else Err (DConfig "method_anomaly").

(** ** Trimming (detect.py:595-622): the year of each time step; the steps kept *)
Definition minZ (l : list Z) : Z := match l with [] => 0%Z | y :: r => fold_left Z.min r y end.
Definition maxZ' (l : list Z) : Z := match l with [] => 0%Z | y :: r => fold_left Z.max r y end.
Definition trim (window : Z) (years : list Z) : result det_err (list bool) :=
  let total := (maxZ' years - minZ years + 1)%Z in
  if Z.ltb total window then Err (DDataValidation "insufficient data")
  else Ok (map (fun y => Z.leb (minZ years + window) y) years).

(** ** identify_extremes (detect.py:1208-1443) *)
Record extreme_args := mkArgs {
  a_method : string; a_percentile : Q; a_days : option Z; a_spatial : option Z;
  a_method_percentile : string; a_precision : Q; a_max : Q }.

(** The computation that is run (detect.py:1412-1429). *)
Inductive plan :=
  GlobalExact (q : Q) | GlobalApprox (q precision max : Q)
| HobdayExact (q : Q) (days : Z) | HobdayApprox (q precision max : Q) (days : Z) (spatial : option Z).

(** % 2 == 0, detect.py:1372, 1394. *)
Definition even (z : Z) : bool := Z.eqb (z mod 2) 0.

(** [has_y]: "y" in dimensions and dimensions["y"] in da.dims (detect.py:1208-1443). *)
Definition plan_extremes (has_y : bool) (a : extreme_args) : result det_err plan :=
  let exact := String.eqb (a_method_percentile a) "exact" in
  let approximate := String.eqb (a_method_percentile a) "approximate" in
  let hobday := String.eqb (a_method a) "hobday_extreme" in
  if negb (exact || approximate) then Err (DConfig "method_percentile")
  else if exact && negb (Qeq_bool (a_precision a) (1#100)) then Err (DConfig "precision")
  else if exact && negb (Qeq_bool (a_max a) 5) then Err (DConfig "max_anomaly")
  else if Qltb (a_percentile a) 60 && approximate then Err (DConfig "percentile")
  else if match a_spatial a with Some _ => negb has_y | None => false end then Err (DConfig "unstructured")
  else if match a_spatial a with Some _ => negb hobday | None => false end then Err (DConfig "not hobday")
  else if match a_spatial a with Some _ => exact | None => false end then Err (DConfig "exact")
  else if hobday && match a_days a with Some d => even d | None => false end then Err (DConfig "window_days")
  else
    let spatial := if hobday && has_y then match a_spatial a with None => Some 5%Z | s => s end else a_spatial a in
    if hobday && match spatial with Some s => even s | None => false end
    then match a_days a with None => Err DTypeError (* None + 1 in the suggestion (detect.py:1403) *) | Some _ => Err (DConfig "window_spatial") end
    else if String.eqb (a_method a) "global_extreme"
    then Ok (if exact then GlobalExact (a_percentile a / 100) else GlobalApprox (a_percentile a / 100) (a_precision a) (a_max a))
    else if hobday then
      match a_days a with
      | None => Err DTypeError            (* N_years * None (detect.py:1846) *)
      | Some d => Ok (if exact then HobdayExact (a_percentile a / 100) d
                      else HobdayApprox (a_percentile a / 100) (a_precision a) (a_max a) d spatial)
      end
    else Err (DConfig "method_extreme").

(** ** Metadata: the spatial window named in preprocessing_steps (detect.py:846-855); the
    argument is the caller's, not the one that was used. *)
Definition reported_spatial (a : extreme_args) : option Z :=
  if String.eqb (a_method a) "hobday_extreme" then a_spatial a else None.

(** ** preprocess_data up to the plan, in order (detect.py:547-657).  [dask] says whether
    the array is dask-backed. *)
Record pre_args := mkPre {
  p_dims : option names; p_coords : option names; p_method : string; p_window : Z; p_orders : option (list Z);
  p_extreme : extreme_args }.
Inductive pre_err := PreDet (e : det_err) | PreData (r : data_report) | PreNotDask.
Definition lift_det {A} (r : result det_err A) : result pre_err A := match r with Ok a => Ok a | Err e => Err (PreDet e) end.
Definition lift_data {A} (r : result data_report A) : result pre_err A := match r with Ok a => Ok a | Err e => Err (PreData e) end.

Definition preprocess_plan (da_dims da_coords : list string) (dask : bool) (n : nat) (da : list (list value)) (years : list Z)
    (p : pre_args) : result pre_err (anomaly * list bool * plan) :=
  bind (lift_det (infer_dims_coords da_dims da_coords (p_dims p) (p_coords p))) (fun dc =>
  if negb dask then Err PreNotDask
  else bind (lift_data (validate_data_values n da)) (fun _ =>
  bind (lift_det (infer_dims_coords da_dims da_coords (Some (fst dc)) (Some (snd dc)))) (fun dc1 =>
  bind (lift_det (anomaly_method (p_method p) (match p_orders p with None => [1%Z] | Some o => o end))) (fun m =>
  bind (lift_det (match m with AShifting => trim (p_window p) years | _ => Ok (map (fun _ => true) years) end)) (fun keep =>
  bind (lift_det (infer_dims_coords da_dims da_coords (Some (fst dc1)) (Some (snd dc1)))) (fun dc2 =>
  bind (lift_det (plan_extremes (has_name (fst dc2) "y") (p_extreme p))) (fun pl => Ok (m, keep, pl)))))))).
