(** Model of plotX: plotX/__init__.py, plotX/base.py, plotX/gridded.py and
    plotX/unstructured.py, without the drawing itself. *)
From Coq Require Import String Ascii QArith.
From Verif Require Import Base Errors Support Partition Histogram.
Open Scope string_scope.
Open Scope list_scope.
Open Scope nat_scope.

(** ** The accessor (plotX/__init__.py) *)
(** _fpath_tgrid, _fpath_ckdtree, _grid_type, plotX/__init__.py:38-40. *)
Record grid_spec := { g_type : option string; g_tgrid : option string; g_ckdtree : option string }.
(** plotX/__init__.py:38-40. *)
Definition grid_start : grid_spec := {| g_type := None; g_tgrid := None; g_ckdtree := None |}.
(** plotX/__init__.py:67, 175. *)
Definition member (s : string) (l : list string) : bool := existsb (String.eqb s) l.
(** str(p) if p else None (plotX/__init__.py:192-193, unstructured.py:139-140). *)
Definition truthy (p : option string) : option string := match p with Some "" => None | _ => p end.
(** specify_grid, plotX/__init__.py:157-194.  None = the call raises ConfigurationError. *)
Definition specify_grid (grid_type tgrid ckdtree : option string) : option grid_spec :=
  match grid_type with
  | Some t => if negb (member (lower t) ["gridded"; "unstructured"]) then None
              else Some {| g_type := match truthy (Some t) with Some t => Some (lower t) | None => None end; g_tgrid := truthy tgrid; g_ckdtree := truthy ckdtree |}
  | None => Some {| g_type := None; g_tgrid := truthy tgrid; g_ckdtree := truthy ckdtree |}
  end.
(** One call in a history: a refused call leaves the globals alone (plotX/__init__.py:173-194). *)
Definition specify_step (s : grid_spec) (c : option string * option string * option string) : grid_spec :=
  match c with (t, a, b) => match specify_grid t a b with Some s' => s' | None => s end end.

(** A DataArray: names of its dimensions and of its coordinates (base.py:137-190). *)
Record array := { a_dims : list string; a_coords : list string }.
Notation mapping := (list (string * string)).
(** base.py:218, 220, plotX/__init__.py:62. *)
Definition default_mapping : mapping := [("time", "time"); ("y", "lat"); ("x", "lon")].
(** base.py:217-220. *)
Definition or_default (m : option mapping) : mapping := match m with Some m => m | None => default_mapping end.
(** _detect_grid_type, plotX/__init__.py:44-79 (the coordinates only reach the log message). *)
Definition detect (a : array) (dims : option mapping) : string :=
  let has_y := match lookup "y" (or_default dims) with Some d => member d (a_dims a) | None => false end in
  if has_y then "gridded" else "unstructured".
(** _validate_dimensions_exist, base.py:137-162, and _validate_coordinates_exist, base.py:165-190:
    the names reported missing.  The loop skips the time entry when it is absent (base.py:139-145, 167-173). *)
Definition missing (names : list string) (m : mapping) : list (string * string) :=
  filter (fun e => negb (String.eqb (fst e) "time" && negb (member (snd e) names)) && negb (member (snd e) names)) m.
(** base.py:214-223, unstructured.py:130-131. *)
Record plotter := { p_class : string; p_dims : mapping; p_coords : mapping; p_tgrid : option string; p_ckdtree : option string }.
(** base.py:149, 177, 352-362, 671-672, unstructured.py:58-82, 173. *)
Inductive plot_error :=
  | MissingDimensions (m : list (string * string)) | MissingCoordinates (m : list (string * string))   (* VisualisationError *)
  | MissingGrid                                      (* VisualisationError, unstructured.py:173 *)
  | NoFile (path : string) | BadGridFile             (* open_dataset fails; DataValidationError *)
  | AxesNotArray | NoPanels | NoWrap                 (* multi_plot: AttributeError, ValueError, ZeroDivisionError *)
  | TooFewColours | NoAttribute (name : string).
(** PlotterBase.__init__, base.py:200-231. *)
Definition construct (class : string) (a : array) (dims coords : option mapping) (tgrid ckdtree : option string) : result plot_error plotter :=
  match missing (a_dims a) (or_default dims) with
  | [] => match missing (a_coords a) (or_default coords) with
          | [] => Ok {| p_class := class; p_dims := or_default dims; p_coords := or_default coords; p_tgrid := tgrid; p_ckdtree := ckdtree |}
          | m => Err (MissingCoordinates m)
          end
  | m => Err (MissingDimensions m)
  end.
(** PlotXAccessor.__call__, plotX/__init__.py:89-138; UnstructuredPlotter.__init__, unstructured.py:119-131;
    UnstructuredPlotter.specify_grid, unstructured.py:133-140.  The mismatch warning is not modelled. *)
Definition call (s : grid_spec) (a : array) (dims coords : option mapping) : result plot_error plotter :=
  let final := match g_type s with Some t => t | None => detect a dims end in
  let class := if String.eqb (lower final) "unstructured" then "unstructured" else "gridded" in
  bind (construct class a dims coords (if String.eqb class "unstructured" then g_tgrid s else None) (if String.eqb class "unstructured" then g_ckdtree s else None))
    (fun p =>
       if String.eqb final "unstructured" then
         match g_tgrid s, g_ckdtree s with
         | Some t, Some c => Ok {| p_class := p_class p; p_dims := p_dims p; p_coords := p_coords p; p_tgrid := truthy (Some t); p_ckdtree := truthy (Some c) |}
         | _, _ => Ok p
         end
       else Ok p).

(** ** Grid files (unstructured.py) *)
(** What a grid file holds: a triangulation if it has the three variables, unstructured.py:58-82. *)
Notation disk T := (string -> option (option T)).   (* None = no file, Some None = variables missing *)
Notation cache T := (list (string * T)).
(** _load_triangulation, unstructured.py:50-82; _load_ckdtree, unstructured.py:85-113, differs only in its key. *)
Definition load {T : Type} (files : disk T) (c : cache T) (path : string) : result plot_error (T * cache T) :=
  match lookup path c with
  | Some t => Ok (t, c)
  | None => match files path with
            | None => Err (NoFile path)
            | Some None => Err BadGridFile
            | Some (Some t) => Ok (t, (path, t) :: c)
            end
  end.
(** What happens between plots: files change, plots load a grid, clear_cache (unstructured.py:44-47). *)
Inductive grid_event (T : Type) := Write (path : string) (content : option T) | Plot (path : string) | ClearCache.
Arguments Write {T}. Arguments Plot {T}. Arguments ClearCache {T}.
(** files written by others between plots, read at unstructured.py:55-59. *)
Definition write {T : Type} (files : disk T) (path : string) (content : option T) : disk T :=
  fun p => if String.eqb p path then Some content else files p.
(** unstructured.py:44-82. *)
Definition grid_step {T : Type} (s : disk T * cache T) (e : grid_event T) : disk T * cache T :=
  match e with
  | Write p t => (write (fst s) p t, snd s)
  | Plot p => (fst s, match load (fst s) (snd s) p with Ok (_, c) => c | Err _ => snd s end)
  | ClearCache => (fst s, [])
  end.
(** UnstructuredPlotter.plot, unstructured.py:142-199: which grid is drawn on (unstructured.py:150, 170). *)
Inductive drawn := OnTree (path : string) | OnTriangles (path : string).
(** unstructured.py:150-183. *)
Definition choose (p : plotter) : result plot_error drawn :=
  match p_ckdtree p with
  | Some c => Ok (OnTree c)
  | None => match p_tgrid p with Some t => Ok (OnTriangles t) | None => Err MissingGrid end
  end.

(** ** Longitude wrapping (wrap_lon, gridded.py:48-60).  One column per longitude;
    None = IndexError on a single longitude (lon.max(), gridded.py:54, base.py:566). *)
Definition maxQ_of (x : Q) (l : list Q) : Q := fold_left (fun a b => if Qle_bool a b then b else a) l x.
(** lon.min(), gridded.py:54. *)
Definition minQ_of (x : Q) (l : list Q) : Q := fold_left (fun a b => if Qle_bool b a then b else a) l x.
(** gridded.py:48-60. *)
Definition wrap_lon {A : Type} (lon : list Q) (columns : list A) : option (list Q * list A) :=
  match lon, columns with
  | x :: y :: r, c :: _ =>
      let spacing := (y - x)%Q in
      let span := (maxQ_of x (y :: r) - minQ_of x (y :: r))%Q in
      if Qltb (Qabs' (360 - span)) (2 * spacing) then Some (lon ++ [(x + 360)%Q], columns ++ [c]) else Some (lon, columns)
  | _, _ => None
  end.

(** ** Colours (base.py) *)
(** clim_robust, base.py:559-571: percentiles are whole numbers; NaN already dropped by
    nanpercentile.  None = no valid value (NaN limits) (base.py:563). *)
Definition percentile (p : Q) (data : list Q) : option Q := quantile (p / 100) data.
Definition clim_robust (data : list Q) (symmetric : bool) (p0 p1 : Q) : option (Q * Q) :=
  match percentile p0 data, percentile p1 data with
  | Some a, Some b =>
      if symmetric then let m := maxQ_of (Qabs' a) [Qabs' b] in Some ((- m)%Q, m)
      else if Qeq_bool p0 0 then Some (0%Q, b) else Some (a, b)
  | _, _ => None
  end.
(** setup_id_plot_params, base.py:578-590: bounds are k + 1/2 for k = 0..max_id. *)
Definition id_bounds (max_id : nat) : list Q := map (fun k => (natQ k - (1 # 2))%Q) (seq 1 (S max_id)).
(** BoundaryNorm of matplotlib: the region a value falls in, then the colour when the
    colour map has more entries than there are regions.  The integer width of its
    result is not modelled (base.py:589). *)
Definition region (bounds : list Q) (v : Q) : nat := count (fun b => Qle_bool b v) bounds - 1.
(** base.py:585-589. *)
Definition colour (max_id : nat) (cmap : option nat) (id : nat) : result plot_error nat :=
  let regions := length (id_bounds max_id) - 1 in
  let n := match cmap with Some n => n | None => regions end in
  if Nat.ltb n regions then Err TooFewColours
  else
    let i := region (id_bounds max_id) (natQ id) in
    Ok (if Nat.ltb regions n then (if Nat.eqb regions 1 then (n - 1) / 2 else (n - 1) * i / (regions - 1)) else i).

(** ** Panels (multi_plot, base.py:348-406): for each panel its row and column. *)
(** base.py:352-392. *)
Definition multi_plot (p : plotter) (a : array) (npanels col_wrap : nat) : result plot_error (list (nat * nat)) :=
  if Nat.eqb col_wrap 0 then Err NoWrap
  else
    let nrows := (npanels + col_wrap - 1) / col_wrap in
    let ncols := Nat.min npanels col_wrap in
    if Nat.eqb (nrows * ncols) 0 then Err NoPanels
    else if Nat.eqb (nrows * ncols) 1 then Err AxesNotArray   (* fig.subplots(1, 1) is no array: .flatten() *)
    else bind (construct (p_class p) a None None (p_tgrid p) (p_ckdtree p))   (* type(self)(self.da), base.py:362 *)
           (fun _ => Ok (map (fun i => (i / ncols, i mod ncols)) (seq 0 npanels))).

(** ** Animations (animate, base.py:408-557; make_frame, base.py:604-797) *)
(** f"time_{time_ind:04d}.jpg", base.py:782. *)
Definition frame_name (i : nat) : string := ("time_" ++ pad_number 4 i ++ ".jpg")%string.
(** x.split("_")[-1].split(".")[0], base.py:526 (base.py:526). *)
Fixpoint before (c : ascii) (s : string) : string :=
  match s with EmptyString => EmptyString | String d r => if Ascii.eqb d c then EmptyString else String d (before c r) end.
(** base.py:526. *)
Fixpoint after_last_from (best : string) (c : ascii) (s : string) : string :=
  match s with EmptyString => best | String d r => if Ascii.eqb d c then after_last_from r c r else after_last_from best c r end.
(** base.py:526. *)
Definition after_last (c : ascii) (s : string) : string := after_last_from s c s.
(** int(text) on digits (base.py:526). *)
Fixpoint int_from (acc : nat) (s : string) : nat := match s with EmptyString => acc | String c r => int_from (10 * acc + (nat_of_ascii c - 48)) r end.
(** base.py:526. *)
Definition frame_key (name : string) : nat := int_from 0 (before "." (after_last "_" name)).
(** sorted(filenames, key=...) is stable (base.py:526). *)
Fixpoint insert_by (key : string -> nat) (x : string) (l : list string) : list string :=
  match l with [] => [x] | y :: r => if Nat.leb (key x) (key y) then x :: l else y :: insert_by key x r end.
(** base.py:526. *)
Definition sort_by (key : string -> nat) (l : list string) : list string := fold_right (insert_by key) [] l.
(** delayed_tasks[i : i + batch_size] for i in range(0, n, batch_size), base.py:517-522. *)
Fixpoint batches {A : Type} (fuel size : nat) (l : list A) : list (list A) :=
  match fuel, l with
  | S f, _ :: _ => firstn size l :: batches f size (skipn size l)
  | _, _ => []
  end.
(** base.py:514-526. *)
Definition frames (n : nat) : list string :=
  sort_by frame_key (concat (map (fun batch => map frame_name batch) (batches n 200 (seq 0 n)))).
(** base.py:451-454, 557. *)
Definition animation_file (plot_dir : string) (file_name : option string) (da_name : string) : string :=
  let name := match truthy file_name with Some n => n | None => ("movie_" ++ da_name ++ ".mp4")%string end in
  (plot_dir ++ "/" ++ name ++ ".mp4")%string.
(** The plain-grid branch of make_frame, base.py:671-672: the attributes lat and lon. *)
Definition frame_axes (a : array) (unstructured : bool) : result plot_error unit :=
  if unstructured then Ok tt
  else if negb (member "lat" (a_coords a ++ a_dims a)) then Err (NoAttribute "lat")
  else if negb (member "lon" (a_coords a ++ a_dims a)) then Err (NoAttribute "lon") else Ok tt.
(** base.py:789-791. *)
Definition even_size (size : nat * nat) : nat * nat := (fst size - fst size mod 2, snd size - snd size mod 2).
(** np.unique of the values that are not NaN (base.py:717). *)
Fixpoint insertQ (x : Q) (l : list Q) : list Q :=
  match l with [] => [x] | y :: r => if Qeq_bool x y then l else if Qle_bool x y then x :: l else y :: insertQ x r end.
(** base.py:717. *)
Definition unique_values (l : list (option Q)) : list Q :=
  fold_right insertQ [] (flat_map (fun v => match v with Some q => [q] | None => [] end) l).
(** base.py:713-740: the points drawn on a frame.  The IDs looked up are the positive values of
    the plotted data (717-718); object_ids is not used. *)
Definition frame_centroids (data : list (option Q)) (object_ids : option (list Z)) (table : list (Z * (option Q * option Q))) : list (Q * Q) :=
  flat_map (fun v => match find (fun e => Qeq_bool (inject_Z (fst e)) v) table with
                     | Some (_, (Some lat, Some lon)) => [(lon, lat)]
                     | _ => []
                     end) (filter (fun v => negb (Qle_bool v 0)) (unique_values data)).
