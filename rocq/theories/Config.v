(** Model of the tracker constructor: area-filter resolution, unit handling,
    input validation.  Source: /repo/marEx/track.py. *)
From Coq Require Import String Qabs Qminmax.
From Verif Require Import Base.
Open Scope Q_scope.
Open Scope string_scope.

(** The exceptions a constructor can raise.  Only the class and, for the
    errors raised by this code, which check raised it are kept; the texts of
    details and suggestions are not modelled (raised at track.py:413-418, 500-710, 734-748, 928-971, 1031-1057). *)
Inductive err : Type :=
| KeyError (what : string)
| ValueError (what : string)
| NotImplementedErr
| CoordinateErr
| DataValidationErr (what : string)
| ConfigurationErr (what : string).

(** track.py:712-748 [_resolve_area_filtering_parameters].
    Result: (area_filter_quartile, area_filter_absolute, _use_absolute_filtering). *)
Definition resolve_area (quartile : option Q) (absolute : option Z)
  : result err (Q * Z * bool) :=
  match quartile, absolute with
  | None, None => Ok (1 # 2, 0%Z, false)
  | Some q, None => Ok (q, 0%Z, false)
  | None, Some a => Ok (0, a, true)
  | Some _, Some _ => Err (ConfigurationErr "both area filters")
  end.

(** numpy.pi is the double 884279719003555 / 2^48 (np.pi at track.py:937-975, 999-1008). *)
Definition np_pi : Q := 884279719003555 # 281474976710656.

(** track.py:919-971, the decision part of [_unify_coordinates].
    [lon_min], [lon_max] are the extremes of the x coordinate.  Subtraction is
    exact rational arithmetic instead of float64. *)
Definition detect_units (regional : bool) (units : option string)
    (lon_min lon_max : Q) : result err string :=
  if regional then
    match units with
    | None => Err CoordinateErr
    | Some u => if String.eqb u "degrees" || String.eqb u "radians"
                then Ok u else Err CoordinateErr
    end
  else
    match units with
    | Some u => if String.eqb u "degrees" || String.eqb u "radians"
                then Ok u else Err CoordinateErr
    | None =>
        let lon_range := lon_max - lon_min in
        if Qle_bool (Qabs (lon_range - 360)) 1 then Ok "degrees"
        else if Qle_bool (Qabs (lon_range - 2 * np_pi)) (2 # 100) then Ok "radians"
        else Err CoordinateErr
    end.

(** The coordinate part of the caller's DataArray (data_bin[self.ycoord], data_bin[self.xcoord], track.py:396-397). *)
Record coords := mkCoords { c_lon : list Q; c_lat : list Q }.

(** .min() of a coordinate, track.py:919-971. *)
Definition lmin (l : list Q) : Q :=
  match l with [] => 0 | x :: r => fold_left Qmin r x end.
(** .max() of a coordinate, track.py:919-971. *)
Definition lmax (l : list Q) : Q :=
  match l with [] => 0 | x :: r => fold_left Qmax r x end.

(** the factor 180 / np.pi, track.py:973-976. *)
Definition to_deg (x : Q) : Q := x * 180 / np_pi.

(** What the constructor stores about coordinates: the saved initial values
    (track.py:396-397), the unit (398) and the values used for processing (409-410). *)
Record tracker_coords := mkTC {
  tc_lon_init : list Q; tc_lat_init : list Q;
  tc_units : string;
  tc_lon : list Q; tc_lat : list Q }.

(** track.py:374, 396-398, 409-410 and 973-976.  [self.data_bin] is the very
    object passed by the caller, and DataArray.__setitem__ with a coordinate
    name assigns in place, so the caller's array changes: the second component
    is the caller's coordinates afterwards.  The saved [lon_init]/[lat_init]
    are separate persisted arrays.  An empty coordinate is not modelled
    (numpy's max raises on it). *)
Definition construct_coords (regional : bool) (units : option string) (c : coords)
  : result err tracker_coords * coords :=
  match detect_units regional units (lmin (c_lon c)) (lmax (c_lon c)) with
  | Err e => (Err e, c)
  | Ok u =>
      let c' := if String.eqb u "radians"
                then mkCoords (map to_deg (c_lon c)) (map to_deg (c_lat c))
                else c in
      (Ok (mkTC (c_lon c) (c_lat c) u (c_lon c') (c_lat c')), c')
  end.

(** track.py:999-1013, the longitude part of [_remap_coordinates].  Input: unit,
    extremes of the initial longitudes, centroid longitude in degrees. *)
Definition remap_lon (units : string) (lon_min lon_max lon : Q) : Q :=
  if String.eqb units "radians" then
    let l := lon * np_pi / 180 in
    if Qle_bool 0 lon_min && Qltb np_pi lon_max
    then if Qltb l 0 then l + 2 * np_pi else l
    else l
  else
    if Qle_bool 0 lon_min && Qltb 180 lon_max
    then if Qltb lon 0 then lon + 360 else lon
    else lon.

(** track.py:978-1020: the coordinates of the output are the saved initial ones;
    centroids (lat, lon) go back to the unit and range of the input. *)
Definition remap_lat (units : string) (lat : Q) : Q :=
  if String.eqb units "radians" then lat * np_pi / 180 else lat.
Definition remap_coordinates (t : tracker_coords) (cents : list (Q * Q)) : coords * list (Q * Q) :=
  (mkCoords (tc_lon_init t) (tc_lat_init t),
   map (fun p => (remap_lat (tc_units t) (fst p),
                  remap_lon (tc_units t) (lmin (tc_lon_init t)) (lmax (tc_lon_init t)) (snd p))) cents).

(** ** Constructor validation *)

(** What the constructor looks at.  Coordinates present on the array are
    [i_coords]; indexing a DataArray by the name of a dimension without a
    coordinate also works (it yields a default index), any other name is a
    KeyError.  Transposing fails exactly when the requested names are not a
    permutation of the array's.  [i_gridres] is [Some None] for a value that is
    not an int or float.  The mask is given as dtype flag and values (arguments of __init__, track.py:323-374). *)
Record input := mkInput {
  i_regional : bool;
  i_unstructured : bool;
  i_units : option string;
  i_lon_min : Q; i_lon_max : Q;
  i_dims : list string;
  i_coords : list string;
  i_timedim : string; i_xdim : string; i_ydim : string;
  i_timecoord : string; i_xcoord : string; i_ycoord : string;
  i_dask : bool;
  i_dtype_bool : bool;
  i_temp_dir : option string;
  i_neighbours : option (nat * list string);
  i_cell_areas : option (list string);
  i_gridres : option (option Q);
  i_mask_bool : bool;
  i_mask : list bool;
  i_quartile : option Q;
  i_absolute : option Z;
  i_T_fill : Z }.

(** "in" on dims and coords, track.py:545-549. *)
Definition mems (s : string) (l : list string) : bool := existsb (String.eqb s) l.
(** transpose needs the same dimension names, track.py:505-524. *)
Definition same_set (a b : list string) : bool :=
  forallb (fun s => mems s b) a && forallb (fun s => mems s a) b.
(** transpose, track.py:505-524. *)
Definition permuted (req have : list string) : bool :=
  same_set req have && Nat.eqb (List.length req) (List.length have).

(** data_bin[name]: a coordinate or a dimension name (track.py:396-397, 409-410). *)
Definition indexable (i : input) (name : string) : bool :=
  mems name (i_coords i) || mems name (i_dims i).

(** "if not ...: raise", as throughout track.py:493-710. *)
Definition check (b : bool) (e : err) : result err unit :=
  if b then Ok tt else Err e.

(** track.py:493-710 [_validate_inputs]; [set_index] (569-576) and the
    spatial re-chunking (750-857) never fail here and are left out. *)
Definition validate_inputs (i : input) (qtl : Q) (absl : Z) (use_abs : bool)
  : result err unit :=
  bind (check (negb (i_regional i && i_unstructured i)) NotImplementedErr) (fun _ =>
  bind (if i_unstructured i
        then check (permuted [i_timedim i; i_xdim i] (i_dims i))
                   (DataValidationErr "dimensions unstructured")
        else check (permuted [i_timedim i; i_ydim i; i_xdim i] (i_dims i))
                   (DataValidationErr "dimensions gridded")) (fun _ =>
  bind (check (mems (i_timecoord i) (i_coords i) && mems (i_xcoord i) (i_coords i)
               && mems (i_ycoord i) (i_coords i))
              (DataValidationErr "missing coordinates")) (fun _ =>
  bind (check (i_dtype_bool i) (DataValidationErr "dtype")) (fun _ =>
  bind (if i_unstructured i then
          match i_temp_dir i with
          | None => Err (DataValidationErr "temp_dir")
          | Some _ =>
            match i_neighbours i with
            | None => Err (DataValidationErr "neighbours")
            | Some _ =>
              match i_cell_areas i with
              | None => Err (DataValidationErr "cell_areas")
              | Some _ => Ok tt
              end
            end
          end
        else
          match i_cell_areas i with
          | Some ds => check (same_set ds [i_ydim i; i_xdim i])
                             (DataValidationErr "cell_areas dims")
          | None => Ok tt
          end) (fun _ =>
  bind (match i_gridres i with
        | None => Ok tt
        | Some g =>
            if i_unstructured i then Err (DataValidationErr "grid_resolution unstructured")
            else match g with
                 | None => Err (DataValidationErr "grid_resolution positive")
                 | Some r => check (Qltb 0 r) (DataValidationErr "grid_resolution positive")
                 end
        end) (fun _ =>
  bind (check (i_dask i) (DataValidationErr "dask")) (fun _ =>
  bind (check (i_mask_bool i) (DataValidationErr "mask dtype")) (fun _ =>
  bind (check (existsb (fun b => b) (i_mask i)) (DataValidationErr "mask all false")) (fun _ =>
  bind (if negb use_abs
        then check (negb (Qltb qtl 0 || Qltb 1 qtl)) (ConfigurationErr "quartile range")
        else check (negb (Z.leb absl 0)) (ConfigurationErr "absolute positive")) (fun _ =>
  check (Z.eqb (i_T_fill i mod 2) 0) (ConfigurationErr "T_fill odd"))))))))))).

(** track.py:1031-1089 [_setup_unstructured_grid]; the deletion of an old
    temporary store and the sparse matrix are modelled elsewhere. *)
Definition setup_unstructured (i : input) : result err unit :=
  match i_temp_dir i with
  | None => Err (ConfigurationErr "temp_dir empty")
  | Some d =>
    if String.eqb d "" then Err (ConfigurationErr "temp_dir empty") else
    match i_neighbours i with
    | None => Err (DataValidationErr "neighbours")
    | Some (n, ds) =>
        bind (check (Nat.eqb n 3) (DataValidationErr "neighbours shape")) (fun _ =>
        check (match ds with [a; b] => String.eqb a "nv" && String.eqb b (i_xdim i) | _ => false end)
              (DataValidationErr "neighbours dims"))
    end
  end.

(** The area rule and unit a successfully built tracker works with (attributes set at track.py:378, 405, 734-748). *)
Record config := mkConfig { g_units : string; g_quartile : Q; g_absolute : Z; g_use_abs : bool }.

(** track.py:374-491 [__init__], the order in which the parts can fail. *)
Definition construct (i : input) : result err config :=
  bind (check (indexable i (i_ycoord i)) (KeyError "y coordinate")) (fun _ =>
  bind (check (indexable i (i_xcoord i)) (KeyError "x coordinate")) (fun _ =>
  bind (detect_units (i_regional i) (i_units i) (i_lon_min i) (i_lon_max i)) (fun u =>
  bind (resolve_area (i_quartile i) (i_absolute i)) (fun area =>
  match area with (q, a, ab) =>
  bind (check (i_dask i) (DataValidationErr "chunked")) (fun _ =>
  bind (check (mems (i_timedim i) (i_dims i)) (ValueError "time dimension")) (fun _ =>
  bind (validate_inputs i q a ab) (fun _ =>
  bind (if i_unstructured i then setup_unstructured i else Ok tt) (fun _ =>
  Ok (mkConfig u q a ab)))))
  end)))).
