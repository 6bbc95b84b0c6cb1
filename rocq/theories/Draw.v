(** Model of what plotX hands to matplotlib: PlotConfig (base.py:76-134),
    _setup_common_params (base.py:233-267), single_plot (base.py:331-346), the panels of multi_plot
    (base.py:362-392), make_frame (base.py:604-779), GriddedPlotter.plot (gridded.py:62-99) and
    UnstructuredPlotter.plot (unstructured.py:142-225).

    A picture is the list of coloured marks with the colour scale, title, projection,
    grid lines and colour bar.  Fonts, coastlines, contours and figure sizes are left
    out.  matplotlib: pcolormesh with shading "auto" wants one value per pair of
    coordinates; tripcolor takes values per point before values per triangle, draws
    each triangle in the mean colour value of its points, and knows the shadings
    "flat" (its default) and "gouraud"; Triangulation refuses indices that are no
    points. *)
From Coq Require Import String QArith Qround.
From Verif Require Import Base Errors Support Partition Histogram Plot.
Open Scope string_scope.
Open Scope list_scope.
Open Scope nat_scope.

Notation value := (option Q).
(** base.py:103, 585-587. *)
Inductive cmap := Named (name : string) | Listed (colours : nat).
(** base.py:111, 589. *)
Inductive norm := Bounds (bounds : list Q) (colours : nat) | Custom (name : string).
(** base.py:100-117. *)
Record config := mkConfig { c_title : option string; c_units : string; c_issym : bool; c_cmap : option cmap;
  c_cperc : option (Q * Q); c_clim : option (option (Q * Q)); c_colorbar : bool; c_lines : bool; c_labels : bool;
  c_norm : option norm; c_ids : bool; c_extend : string; c_projection : option string }.
(** [c_clim]: Some None is a pair of NaN, as clim_robust returns without valid values.
    __post_init__ (base.py:119-134), without names and logging (base.py:130, 273). *)
Definition robinson : string := "Robinson".
(** base.py:119-134. *)
Definition post_init (c : config) : config :=
  mkConfig (c_title c) (c_units c) (c_issym c) (c_cmap c)
    (match c_cperc c with None => Some (4%Q, 96%Q) | p => p end) (c_clim c)
    (if c_ids c then false else c_colorbar c) (c_lines c) (c_labels c) (c_norm c) (c_ids c) (c_extend c)
    (match c_projection c with None => Some robinson | p => p end).

(** base.py:581-589, 643-673. *)
Inductive draw_err :=
| NoNumber          (* int(nan): ValueError *)
| NoColourCount     (* a string has no attribute N: AttributeError *)
| FewColours        (* BoundaryNorm: ValueError *)
| ShapeErr          (* pcolormesh: TypeError *)
| IndexErr | ValueErr
| NotBound          (* UnboundLocalError *)
| GridErr (e : plot_error).

(** The colour scale: limits are None when not used, Some None when NaN (base.py:249-265). *)
Record style := mkStyle { st_cmap : cmap; st_norm : option norm; st_clim : option (option (Q * Q)) }.

(** the values nanpercentile and max do not skip, base.py:563, 581. *)
Fixpoint valid (l : list value) : list Q := match l with [] => [] | Some q :: r => q :: valid r | None :: r => valid r end.
(** int(self.da.max().values), base.py:581; IDs are not negative. *)
Definition max_id (l : list value) : option nat :=
  match valid l with [] => None | x :: r => Some (Z.to_nat (Qfloor (maxQ_of x r))) end.
(** self.da.where(self.da > 0), base.py:247. *)
Definition where_positive (v : value) : value := match v with Some q => if Qltb 0 q then Some q else None | None => None end.
(** isel(time=slice(None, None, 10)), base.py:257-260. *)
Fixpoint every_tenth {A : Type} (skip : nat) (l : list A) : list A :=
  match l with [] => [] | x :: r => match skip with 0 => x :: every_tenth 9 r | S k => every_tenth k r end end.

(** _setup_common_params (base.py:233-267) on the values of each step: the scale, the label and
    the extension of the colour bar. *)
Definition setup (has_time : bool) (steps : list (list value)) (c : config) : result draw_err (style * (string * string)) :=
  if c_ids c then
    match max_id (List.concat steps) with
    | None => Err NoNumber
    | Some m =>
        match c_cmap c with
        | Some (Named _) => Err NoColourCount
        | Some (Listed n) => if Nat.ltb n m then Err FewColours else Ok (mkStyle (Listed n) (Some (Bounds (id_bounds m) n)) None, ("ID", "neither"))
        | None => Ok (mkStyle (Listed m) (Some (Bounds (id_bounds m) m)) None, ("ID", "neither"))
        end
    end
  else
    let cm := match c_cmap c with Some m => m | None => if c_issym c then Named "RdBu_r" else Named "viridis" end in
    let cl := match c_clim c, c_norm c with
              | None, None =>
                  let sample := if has_time then every_tenth 0 steps else steps in
                  let p := match c_cperc c with Some p => p | None => (2%Q, 98%Q) end in
                  Some (clim_robust (valid (List.concat sample)) (c_issym c) (fst p) (snd p))
              | l, _ => l
              end in
    Ok (mkStyle cm (c_norm c) cl, (c_units c, c_extend c)).
(** What is drawn with: the norm if there is one, else the limits (gridded.py:85-89,
    unstructured.py:160-164, 187-191, base.py:636-640). *)
Definition scale (s : style) : cmap * (norm + option (option (Q * Q))) :=
  (st_cmap s, match st_norm s with Some n => inl n | None => inr (st_clim s) end).

(** gridded.py:97, unstructured.py:168, 197. *)
Inductive mark := At (lon lat : Q) (v : value) | Triangle (a b c : Q * Q) (v : value).
(** base.py:331-346. *)
Record picture := mkPicture { pc_marks : list mark; pc_scale : cmap * (norm + option (option (Q * Q))); pc_title : option string;
  pc_projection : string; pc_lines : bool; pc_labels : bool; pc_bar : option (string * string) }.

(** ** Grids.  A step is a list along the first of its two dimensions; [rows_lat]: that
    is latitude (gridded.py:91-93). *)
Record grid := mkGrid { g_rows_lat : bool; g_lon : list Q; g_lat : list Q }.
(** gridded.py:91-93. *)
Definition transpose (n : nat) (rows : list (list value)) : list (list value) := map (fun j => map (fun r => nth j r None) rows) (seq 0 n).
(** One list per longitude (gridded.py:57). *)
Definition columns (g : grid) (s : list (list value)) : list (list value) := if g_rows_lat g then transpose (length (g_lon g)) s else s.
(** ax.pcolormesh(lons, lats, values): values[i][j] at lons[j], lats[i] (gridded.py:97). *)
Definition pcolormesh (lon lat : list Q) (values : list (list value)) : list mark :=
  flat_map (fun i => map (fun j => At (nth j lon 0%Q) (nth i lat 0%Q) (nth j (nth i values []) None)) (seq 0 (length lon))) (seq 0 (length lat)).
(** gridded.py:91-97. *)
Definition grid_marks (rows_lat : bool) (lon lat : list Q) (cols : list (list value)) : result draw_err (list mark) :=
  if rows_lat then Ok (pcolormesh lon lat (transpose (length lat) cols))
  else if Nat.eqb (length lon) (length lat) then Ok (pcolormesh lon lat cols) else Err ShapeErr.
(** GriddedPlotter.plot: wrap_lon, then a time dimension of one step is dropped (gridded.py:73-97). *)
Definition grid_plot (g : grid) (has_time : bool) (steps : list (list (list value))) : result draw_err (list mark) :=
  match steps with
  | [s] => match wrap_lon (g_lon g) (columns g s) with
           | Some (lon, cols) => grid_marks (g_rows_lat g) lon (g_lat g) cols
           | None => Err IndexErr
           end
  | _ => Err ShapeErr
  end.

(** ** Meshes *)
(** unstructured.py:105-110. *)
Record tree := mkTree { k_lon : list Q; k_lat : list Q; k_indices : list Z }.
(** unstructured.py:76-79. *)
Record triangulation := mkTri { t_lon : list Q; t_lat : list Q; t_vertices : list (Z * Z * Z) }.  (* as in the file, from 1 *)
(** data[i] of numpy: negative indices count from the end (unstructured.py:223). *)
Definition take (data : list value) (i : Z) : result draw_err value :=
  let n := Z.of_nat (length data) in
  if (0 <=? i)%Z && (i <? n)%Z then Ok (nth (Z.to_nat i) data None)
  else if (- n <=? i)%Z && (i <? 0)%Z then Ok (nth (Z.to_nat (n + i)) data None) else Err IndexErr.
(** unstructured.py:223. *)
Fixpoint collect {A E : Type} (l : list (result E A)) : result E (list A) :=
  match l with [] => Ok [] | Ok a :: r => bind (collect r) (fun t => Ok (a :: t)) | Err e :: _ => Err e end.
(** _interpolate_with_ckdtree (unstructured.py:201-225) and base.py:658-663: reshape to
    latitude by longitude. *)
Definition tree_marks (t : tree) (data : list value) : result draw_err (list mark) :=
  bind (collect (map (take data) (k_indices t))) (fun vs =>
  if Nat.eqb (length vs) (length (k_lat t) * length (k_lon t)) then
    Ok (flat_map (fun i => map (fun j => At (nth j (k_lon t) 0%Q) (nth i (k_lat t) 0%Q) (nth (i * length (k_lon t) + j) vs None)) (seq 0 (length (k_lon t))))
                 (seq 0 (length (k_lat t))))
  else Err ValueErr).
(** unstructured.py:79. *)
Definition point (t : triangulation) (i : Z) : Q * Q := (nth (Z.to_nat i) (t_lon t) 0%Q, nth (Z.to_nat i) (t_lat t) 0%Q).
(** tripcolor, unstructured.py:197. *)
Definition mean3 (a b c : value) : value := match a, b, c with Some a, Some b, Some c => Some ((a + b + c) / 3)%Q | _, _, _ => None end.
(** vertex_of_cell.values.T - 1 (unstructured.py:77). *)
Definition zero_based (t : triangulation) : list (Z * Z * Z) := map (fun v => (fst (fst v) - 1, snd (fst v) - 1, snd v - 1)%Z) (t_vertices t).
(** unstructured.py:79. *)
Definition is_point (t : triangulation) (i : Z) : bool := (0 <=? i)%Z && (i <? Z.of_nat (length (t_lon t)))%Z.
(** tripcolor, unstructured.py:197, base.py:668. *)
Definition tri_marks (shading : string) (t : triangulation) (data : list value) : result draw_err (list mark) :=
  let ts := zero_based t in
  if negb (forallb (fun v => is_point t (fst (fst v)) && is_point t (snd (fst v)) && is_point t (snd v)) ts) then Err ValueErr
  else if negb (String.eqb shading "flat" || String.eqb shading "gouraud") then Err ValueErr
  else
    let corners v := (point t (fst (fst v)), point t (snd (fst v)), point t (snd v)) in
    let draw v x := let '(a, b, c) := corners v in Triangle a b c x in
    if Nat.eqb (length data) (length (t_lon t)) then
      Ok (map (fun v => draw v (mean3 (nth (Z.to_nat (fst (fst v))) data None) (nth (Z.to_nat (snd (fst v))) data None) (nth (Z.to_nat (snd v)) data None))) ts)
    else if Nat.eqb (length data) (length ts) then Ok (map (fun p => draw (fst p) (snd p)) (combine ts data))
    else Err ValueErr.
(** unstructured.py:130-131. *)
Record mesh := mkMesh { m_tree : option string; m_tri : option string; m_trees : disk tree; m_tris : disk triangulation }.
(** unstructured.py:50-113. *)
Definition open {T : Type} (files : disk T) (path : string) : result draw_err T :=
  match load files [] path with Ok (t, _) => Ok t | Err e => Err (GridErr e) end.
(** UnstructuredPlotter.plot.  A time dimension is not dropped: the indices then
    address time steps, and the number of values is wrong for a mesh with more than
    one cell (unstructured.py:142-199). *)
Definition mesh_plot (m : mesh) (has_time : bool) (steps : list (list value)) : result draw_err (list mark) :=
  match m_tree m, m_tri m with
  | Some p, _ => bind (open (m_trees m) p) (fun t =>
      if has_time then bind (collect (map (take (map (fun _ => None) steps)) (k_indices t))) (fun _ => Err ValueErr)
      else tree_marks t (hd [] steps))
  | None, Some p => bind (open (m_tris m) p) (fun t => if has_time then Err ValueErr else tri_marks "flat" t (hd [] steps))
  | None, None => Err (GridErr MissingGrid)
  end.
(** The mesh branch of make_frame (base.py:658-668): None = nothing drawn, [im] unset. *)
Definition mesh_frame (m : mesh) (data : list value) : result draw_err (option (list mark)) :=
  match m_tree m, m_tri m with
  | Some p, _ => bind (open (m_trees m) p) (fun t => bind (tree_marks t data) (fun l => Ok (Some l)))
  | None, Some p => bind (open (m_tris m) p) (fun t => bind (tri_marks "auto" t data) (fun l => Ok (Some l)))
  | None, None => Ok None
  end.

(** ** Whole plots.  [P] is a step of the array, [flat] its values, [each] applies a
    function to them, [plot] one of the two plots. *)
Section Plots.
Context {P : Type} (flat : P -> list value) (each : (value -> value) -> P -> P).
Variable plot : bool -> list P -> result draw_err (list mark).
(** self.da after _setup_common_params (base.py:247). *)
Definition shown (c : config) (steps : list P) : list P := if c_ids c then map (each where_positive) steps else steps.
(** base.py:129-130, 273. *)
Definition projection_of (c : config) : string := match c_projection c with Some p => p | None => robinson end.
(** single_plot (base.py:331-346), with a new figure. *)
Definition single_plot (has_time : bool) (steps : list P) (c : config) : result draw_err picture :=
  bind (setup has_time (map flat steps) c) (fun sb =>
  bind (plot has_time (shown c steps)) (fun marks =>
  Ok (mkPicture marks (scale (fst sb)) (match c_title c with Some "" => None | t => t end) (projection_of c) (c_lines c) (c_labels c)
       (if c_colorbar c then Some (snd sb) else None)))).
(** The panels of multi_plot (base.py:362-392) along time; [title i] is _get_title (base.py:372-384). *)
Definition panel_config (c : config) (sb : style * (string * string)) (title : string) : config :=
  post_init (mkConfig (Some title) "" false (Some (st_cmap (fst sb))) None (st_clim (fst sb))
               false true false (st_norm (fst sb)) false (snd (snd sb)) (c_projection c)).
(** base.py:356, 362-390. *)
Definition panels (steps : list P) (title : nat -> string) (c : config) : result draw_err (list picture) :=
  bind (setup true (map flat steps) c) (fun sb =>
  collect (map (fun p => single_plot false [snd p] (panel_config c sb (title (fst p)))) (combine (seq 0 (length steps)) (shown c steps)))).
(** The frames of animate (base.py:456-514) with make_frame: Robinson projection, grid lines
    always; [draw] is None when nothing has been drawn, which only matters for the
    colour bar (base.py:761-765). *)
Variable draw : P -> result draw_err (option (list mark)).
(** base.py:624-779. *)
Definition frame (c : config) (sb : style * (string * string)) (title : string) (s : P) : result draw_err picture :=
  bind (draw s) (fun marks =>
  let picture_of l := mkPicture l (scale (fst sb)) (Some title) robinson true (c_labels c) (if c_colorbar c then Some (snd sb) else None) in
  match marks with
  | Some l => Ok (picture_of l)
  | None => if c_colorbar c then Err NotBound else Ok (picture_of [])
  end).
(** base.py:457-514. *)
Definition frames_of (steps : list P) (title : nat -> string) (c : config) : result draw_err (list picture) :=
  bind (setup true (map flat steps) c) (fun sb =>
  collect (map (fun p => frame c sb (title (fst p)) (snd p)) (combine (seq 0 (length steps)) (shown c steps)))).
End Plots.

(** The two kinds of data (base.py:247). *)
Definition each_row (f : value -> value) (s : list (list value)) : list (list value) := map (map f) s.
(** base.py:331-346, gridded.py:62-99. *)
Definition grid_single (g : grid) := single_plot (@List.concat value) each_row (grid_plot g).
(** base.py:348-392, gridded.py:62-99. *)
Definition grid_panels (g : grid) := panels (@List.concat value) each_row (grid_plot g).
(** make_frame does not wrap (base.py:670-673). *)
Definition grid_draw (g : grid) (s : list (list value)) : result draw_err (option (list mark)) :=
  bind (grid_marks (g_rows_lat g) (g_lon g) (g_lat g) (columns g s)) (fun l => Ok (Some l)).
(** base.py:456-514, 670-673. *)
Definition grid_frames (g : grid) := frames_of (@List.concat value) each_row (grid_draw g).
(** base.py:331-346, unstructured.py:142-199. *)
Definition mesh_single (m : mesh) := single_plot (fun s : list value => s) (@map value value) (mesh_plot m).
(** base.py:348-392, unstructured.py:142-199. *)
Definition mesh_panels (m : mesh) := panels (fun s : list value => s) (@map value value) (mesh_plot m).
(** base.py:456-514, 643-668. *)
Definition mesh_frames (m : mesh) := frames_of (fun s : list value => s) (@map value value) (mesh_frame m).
