(** Model of tracker.run: run_preprocess with its checkpoints, run_tracking,
    run_stats_attributes.  Source: /repo/marEx/track.py:1162-1493.

    A binary field is the list of its time steps, each the flat list of its
    cells.  Logging, sleeping and dask laziness are not modelled. *)
From Coq Require Import String.
From Verif Require Import Base Morph Label Filter Overlap Merge Partition Cluster.
Open Scope nat_scope.

Notation field := (list (list bool)).

(** Python exceptions and failures that end a run (track.py:1162-1493). *)
Inductive run_err :=
  AttributeError (name : string) | FileNotFound (path : string) | BadFile (path : string)
| ZeroDivision | ClosingFails | NothingToFilter | TrackFails (e : dataset_err) | MeshFails.

(** object_stats (track.py:1344-1351). *)
Record stats := mkStats {
  s_total : Q; s_before : nat; s_after : nat; s_threshold : Q; s_accepted : Q; s_processed : Q }.

(** ** Checkpoint files (track.py:1256-1277, 1316-1324, 1353-1366)

    The zarr store holds one entry per time step (the real chunks hold several
    steps; writing a chunk is writing its steps in a row).  A step that has not
    been written reads as False, the fill value.  [Torn] is a zip file whose
    writing has begun but not ended. *)
Inductive npz := NoNpz | Torn | Whole (s : stats).
Record files := mkFiles { d_zarr : option (list (nat * option (list bool))); d_npz : npz }.

Definition zarr_path : string := "marEx_checkpoint_proc_bin.zarr".
Definition npz_path : string := "marEx_checkpoint_stats.npz".

(** Single effects on the disk: removing one entry of an old store, removing the
    store, creating an empty one of the given shape, writing one entry, opening
    the statistics file, completing it (track.py:1321-1324, 1355-1363). *)
Inductive io :=
  EraseStep (k : nat) | DropStore | InitStore (shape : list nat) | PutStep (k : nat) (b : list bool)
| OpenStats | CloseStats (s : stats).

(** one entry replaced, track.py:1321. *)
Definition put {A} (k : nat) (v : A) (l : list A) : list A :=
  map (fun p => if Nat.eqb (fst p) k then v else snd p) (combine (seq 0 (length l)) l).

(** the effect of each on the files, track.py:1321-1324, 1355-1363. *)
Definition apply_io (dk : files) (o : io) : files :=
  match o with
  | EraseStep k =>
    mkFiles (option_map (fun st => put k (fst (nth k st (0, None)), None) st) (d_zarr dk)) (d_npz dk)
  | DropStore => mkFiles None (d_npz dk)
  | InitStore shape => mkFiles (Some (map (fun n => (n, None)) shape)) (d_npz dk)
  | PutStep k b => mkFiles (option_map (put k (length b, Some b)) (d_zarr dk)) (d_npz dk)
  | OpenStats => mkFiles (d_zarr dk) Torn
  | CloseStats s => mkFiles (d_zarr dk) (Whole s)
  end.
(** several in a row, track.py:1321-1324, 1355-1363. *)
Definition run_io (ops : list io) (dk : files) : files := fold_left apply_io ops dk.

(** to_zarr(mode="w"): the old store is removed, entry by entry in the order
    [erase], then a new one is made and filled in the order [order] of the
    scheduler (track.py:1321-1323). *)
Definition write_field (erase order : list nat) (f : field) : list io :=
  map EraseStep erase ++ [DropStore; InitStore (map (@length bool) f)]
  ++ map (fun k => PutStep k (nth k f [])) order.
(** numpy.savez (track.py:1355-1363). *)
Definition write_stats (s : stats) : list io := [OpenStats; CloseStats s].

(** xr.open_zarr of one time step, track.py:1258-1261. *)
Definition read_step (e : nat * option (list bool)) : list bool :=
  match snd e with Some b => b | None => repeat false (fst e) end.
(** load_data_from_checkpoint, track.py:1256-1262. *)
Definition load_field (dk : files) : result run_err field :=
  match d_zarr dk with Some st => Ok (map read_step st) | None => Err (FileNotFound zarr_path) end.
(** load_stats_from_checkpoint, track.py:1264-1277. *)
Definition load_stats (dk : files) : result run_err stats :=
  match d_npz dk with NoNpz => Err (FileNotFound npz_path) | Torn => Err (BadFile npz_path) | Whole s => Ok s end.
(** track.py:1279-1281. *)
Definition load (dk : files) : result run_err (field * stats) :=
  bind (load_field dk) (fun f => bind (load_stats dk) (fun s => Ok (f, s))).

(** ** The tracker object: data_bin is deleted on use (track.py:1292); scratch_dir only
    exists on unstructured grids (1041). *)
Record tracker := mkTracker { t_data : option field; t_checkpoint : option string; t_scratch : bool }.
Definition without_data (tr : tracker) : tracker := mkTracker None (t_checkpoint tr) (t_scratch tr).

(** "if not checkpoint: checkpoint = self.checkpoint" (track.py:1253). *)
Definition effective (arg : option string) (tr : tracker) : option string :=
  match arg with
  | None | Some EmptyString => t_checkpoint tr
  | Some s => Some s
  end.
Definition loads (c : option string) : bool := match c with Some s => String.eqb s "load" | None => false end.
Definition saves (c : option string) : bool :=
  match c with Some s => match index 0 "save" s with Some _ => true | None => false end | None => false end.

Section Run.
(** The phases, given below for grids and meshes: filling and filtering; area of
    a field; tracking. *)
Variable clean : field -> result run_err filtered.
Variable area : field -> Q.
Variable output : Type.
Variable track : field -> result run_err output.

(** Statistics (track.py:1330-1351): a float division by zero raises. *)
Definition stats_of (data : field) (f : filtered) (out : field) : result run_err stats :=
  if Nat.eqb (total_area_IDed f) 0 then Err ZeroDivision
  else if Qeq_bool (area out) 0 then Err ZeroDivision
  else Ok (mkStats (nat_Q (total_area_IDed f)) (f_before f) (f_after f) (f_threshold f)
             (accepted_area_fraction f) (area data / area out)%Q).

(** run_preprocess (track.py:1234-1368): the tracker afterwards, the disk effects in
    order, the result. *)
Definition run_preprocess (erase order : list nat) (arg : option string) (tr : tracker) (dk : files)
  : tracker * list io * result run_err (field * stats) :=
  let c := effective arg tr in
  if loads c then (tr, [], if t_scratch tr then load dk else Err (AttributeError "scratch_dir"))
  else
    match t_data tr with
    | None => (tr, [], Err (AttributeError "data_bin"))
    | Some d =>
      let tr' := without_data tr in
      match clean d with
      | Err e => (tr', [], Err e)
      | Ok f =>
        if saves c then
          if t_scratch tr then
            let ops := write_field erase order (f_keep f) in
            match bind (load_field (run_io ops dk)) (stats_of d f) with
            | Err e => (tr', ops, Err e)
            | Ok s => (tr', ops ++ write_stats s, load (run_io (ops ++ write_stats s) dk))
            end
          else (tr', [], Err (AttributeError "scratch_dir"))
        else (tr', [], bind (stats_of d f (f_keep f)) (fun s => Ok (f_keep f, s)))
      end
    end.

(** run (track.py:1162-1232) up to the attributes. *)
Definition run (erase order : list nat) (arg : option string) (tr : tracker) (dk : files)
  : tracker * list io * result run_err (output * stats) :=
  let '(tr', ops, r) := run_preprocess erase order arg tr dk in
  (tr', ops, bind r (fun fs => bind (track (fst fs)) (fun o => Ok (o, snd fs)))).
End Run.

(** ** Structured grids *)

(** track.py:377, 400-403. *)
Record grid := mkGrid {
  g_regional : bool; g_nt : nat; g_ny : nat; g_nx : nat; g_mask : list bool; g_R : Z; g_T : Z; g_rule : area_rule }.

(** One time step as an index function and back (data_bin.isel(time=t), track.py:1284-1298). *)
Definition img_of (nx : nat) (l : list bool) : img := fun y x => nth (Z.to_nat y * nx + Z.to_nat x) l false.
(** track.py:1284-1298. *)
Definition flat_img (ny nx : nat) (f : img) : list bool :=
  map (fun k => f (Z.of_nat (k / nx)) (Z.of_nat (k mod nx))) (seq 0 (ny * nx)).

(** fill_holes, fill_time_gaps, filter_small_objects (track.py:1284-1314). *)
Definition fill_grid (g : grid) (data : field) : option field :=
  option_map (map (flat_img (g_ny g) (g_nx g)))
    (preprocess_morph (g_regional g) (g_T g) (g_R g) (Z.of_nat (g_ny g)) (Z.of_nat (g_nx g))
       (img_of (g_nx g) (g_mask g)) (map (img_of (g_nx g)) data)).
(** track.py:1289-1314. *)
Definition clean_grid (g : grid) (data : field) : result run_err filtered :=
  match fill_grid g data with
  | None => Err ClosingFails
  | Some s =>
    match filter_grid (g_regional g) (g_rule g) (g_nt g) (g_ny g) (g_nx g) (concat s) with
    | Err _ => Err NothingToFilter
    | Ok f => Ok f
    end
  end.
(** compute_area (track.py:1499-1518) summed over time: pixels. *)
Definition area_grid (f : field) : Q := nat_Q (count (fun b => b) (concat f)).

(** run_tracking without and with merging (track.py:1370-1412): the ID field, the number
    of events, the merges dataset. *)
Definition track_simple (g : grid) (f : field) : result run_err (list (list Z) * Z * option merges) :=
  let (lab, n) := run_tracking_simple (g_regional g) (g_nt g) (g_ny g) (g_nx g) (concat f) in
  Ok (time_fields (g_nt g) (g_ny g) (g_nx g) lab, Z.of_nat n, None).
Definition track_merging (g : grid) (nn : bool) (cent : list bool -> Q * Q) (thr : Q) (ca : list Q) (sizes : list nat)
    (f : field) : result run_err (list (list Z) * Z * option merges) :=
  match track_grid nn (g_regional g) (g_nt g) (g_ny g) (g_nx g) cent thr ca sizes (concat f) with
  | Err e => Err (TrackFails e)
  | Ok (ev, mg) => Ok (v_field ev, n_events ev, Some mg)
  end.

(** ** Meshes *)

(** track.py:400-403, 477, 1059-1060. *)
Record mesh_setup := mkMesh { h_nbs : mesh; h_mask : list bool; h_R : nat; h_T : Z; h_rule : area_rule; h_area : list Q }.

(** fill_time_gaps (track.py:1675-1726), unstructured. *)
Definition fill_time_gaps_mesh (h : mesh_setup) (s : field) : option field :=
  if Z.eqb (h_T h) 0 then Some s
  else if Z.ltb (h_T h + 1) 0 then None
  else
    let series := fun i => match close_time (h_T h) (map (fun v => atb v i) s) with Some l => l | None => [] end in
    Some (map (fun t => fill_holes_mesh (h_nbs h) (h_R h / 2) (h_mask h)
                          (map (fun i => nth t (series i) false) (seq 0 (length (h_nbs h)))))
              (seq 0 (length s))).
(** track.py:1289-1314. *)
Definition clean_mesh (h : mesh_setup) (data : field) : result run_err filtered :=
  match fill_time_gaps_mesh h (map (fill_holes_mesh (h_nbs h) (h_R h) (h_mask h)) data) with
  | None => Err ClosingFails
  | Some s =>
    match filter_small_mesh (h_rule h) (h_nbs h) (h_mask h) s with
    | Err _ => Err NothingToFilter
    | Ok f => Ok f
    end
  end.
(** compute_area summed over time, track.py:1499-1518, 1340-1341. *)
Definition area_mesh (h : mesh_setup) (f : field) : Q :=
  fold_right Qplus 0%Q (map snd (filter fst (flat_map (fun v => combine v (h_area h)) f))).

(** ** Attributes (run_stats_attributes, track.py:1414-1493) *)

Inductive attr := AInt (z : Z) | ANum (q : Q) | AText (s : string).
Notation attrs := (list (string * attr)).
(** A Python dict in insertion order (events_ds.attrs[k] = v, track.py:1451-1460). *)
Fixpoint set_attr (d : attrs) (k : string) (v : attr) : attrs :=
  match d with
  | [] => [(k, v)]
  | (k', v') :: r => if String.eqb k' k then (k', v) :: r else (k', v') :: set_attr r k v
  end.
(** attrs.update, track.py:1484. *)
Definition update_attrs (d new : attrs) : attrs := fold_left (fun d p => set_attr d (fst p) (snd p)) new d.

(** The tracker's own settings that are reported (track.py:1451-1484). *)
Record setup := mkSetup {
  u_merging : bool; u_R : Z; u_T : Z; u_quartile : Q; u_overlap : Q; u_nn : bool; u_data_attrs : attrs }.
(** int(bool), track.py:1451, 1475. *)
Definition bool_int (b : bool) : Z := if b then 1%Z else 0%Z.

(** track.py:1450-1460. *)
Definition general_attrs (u : setup) (s : stats) (n_events : Z) : attrs :=
  [("allow_merging", AInt (bool_int (u_merging u)));
   ("N_objects_prefiltered", AInt (Z.of_nat (s_before s)));
   ("N_objects_filtered", AInt (Z.of_nat (s_after s)));
   ("N_events_final", AInt n_events);
   ("R_fill", AInt (u_R u));
   ("T_fill", AInt (u_T u));
   ("area_filter_quartile", ANum (u_quartile u));
   ("area_threshold (cells)", ANum (s_threshold s));
   ("accepted_area_fraction", ANum (s_accepted s));
   ("preprocessed_area_fraction", ANum (s_processed s))]%string.
(** track.py:1472-1479. *)
Definition merge_attrs (u : setup) (mg : merges) : attrs :=
  [("overlap_threshold", ANum (u_overlap u));
   ("nn_partitioning", AInt (bool_int (u_nn u)));
   ("total_merges", AInt (Z.of_nat (length (m_time mg))));
   ("multi_parent_merges", AInt (Z.of_nat (count (Z.ltb 2) (m_n_parents mg))))]%string.
(** [events_attrs] is what the events dataset carries before (track.py:1450-1484). *)
Definition stats_attributes (u : setup) (events_attrs : attrs) (s : stats) (n_events : Z) (mg : merges) : attrs :=
  let d := update_attrs events_attrs (general_attrs u s n_events) in
  let d := if u_merging u then update_attrs d (merge_attrs u mg) else d in
  update_attrs d (u_data_attrs u).
