(** Model of run_tracking on an unstructured mesh, from the preprocessed data to
    the events.  Source: /repo/marEx/track.py:1370-1412 and 2734-2807. *)
From Verif Require Import Base Graph Morph Label Filter Overlap Merge Partition Cluster MeshPart Parallel Run.
Open Scope nat_scope.

(** Ways tracking fails: the loop of split_and_merge_objects_parallel; no object
    at all, so the largest ID of an empty table is asked for (track.py:4682); an ID with two
    entries in the recomputed object_props, so that [sel] with an array of IDs
    raises InvalidIndexError (2539 if there are overlaps, 3013 always); the
    clustering. *)
Inductive mesh_err := NoObjects | MergeFails (e : par_err) | DuplicateIDs | ClusterFails (e : dataset_err).

Fixpoint distinctZ (l : list Z) : bool :=
  match l with [] => true | x :: r => negb (memZ x r) && distinctZ r end.

Section Tracking.
Variables (m : mesh) (mask : list bool) (w : list Q) (cent : list bool -> Q * Q) (thr : Q).
Variable part : list Z -> list bool -> list Z -> list Z -> result par_err (list Z).
Variable order : list Z -> list Z.
Variables (tc max_iteration : nat).

(** identify_objects at every time, IDs made unique over time (track.py:2757-2765). *)
Definition mesh_objects (data : list (list bool)) : list (list Z) := offset_ids (map (identify_mesh m mask) data).

(** After the loop, object_props and the overlaps are computed again (track.py:4800-4807).
    The merges dataset is that of Merge.v; without merges its parent_idx has one
    entry instead of none (4751-4757), which only changes the width of an empty
    table and of a ledger full of -1. *)
Definition final_props (fields : list (list Z)) : props := initial_props w cent fields.
Definition final_pairs (fields : list (list Z)) : list (Z * Z) :=
  map row_pair (enforce_threshold thr (final_props fields) (find_overlapping w fields)).

(** Clustering of the final objects (track.py:2785-2788) and fillers set to 0 (1400-1401). *)
Definition mesh_events (st : pstate) : result mesh_err (events * merges) :=
  let fields := pt_fields st in
  if distinctZ (prop_ids (final_props fields)) then
    let mg := merge_dataset (pt_events st) in
    match cluster_rename w fields (final_pairs fields) mg with
    | Err e => Err (ClusterFails e)
    | Ok ev =>
      Ok (mkEvents (map (map (fun v => if Z.ltb 0 v then v else 0%Z)) (v_field ev)) (v_count ev) (v_global ev)
            (v_presence ev) (v_start ev) (v_end ev) (v_area ev) (v_ledger ev), mg)
    end
  else Err DuplicateIDs.

(** track_objects on a mesh; the scratch store holds the field when the loop
    starts (track.py:2764). *)
Definition track_mesh (data : list (list bool)) : result mesh_err (events * merges) :=
  let lab := mesh_objects data in
  match initial_props w cent lab with
  | [] => Err NoObjects
  | ps =>
    match parallel_merge w thr part order tc max_iteration ps (Some lab) lab with
    | Err e => Err (MergeFails e)
    | Ok st => mesh_events st
    end
  end.
End Tracking.

(** run_tracking on a mesh (track.py:1370-1412), for Run.run: the ID field, the number of
    events, the merges dataset.  Which failure it was is left out. *)
Definition track_on_mesh (h : mesh_setup) (cent : list bool -> Q * Q) (thr : Q)
    (part : list Z -> list bool -> list Z -> list Z -> result par_err (list Z)) (set_iter : list Z -> list Z) (tc limit : nat)
    (f : field) : result run_err (list (list Z) * Z * option merges) :=
  match track_mesh (h_nbs h) (h_mask h) (h_area h) cent thr part set_iter tc limit f with
  | Err _ => Err MeshFails
  | Ok (ev, mg) => Ok (v_field ev, n_events ev, Some mg)
  end.
