(** Model of trackers on meshes that share a file system: the constructor deletes
    marEx_temp_field.zarr in its temp_dir (track.py:1041-1045), track_objects writes the objects
    there and reads them back (refresh_dask_graph, track.py:1728-1753, 2765), each round of
    split_and_merge_objects_parallel reads the store, writes it (track.py:4273-4367) and the
    result is read from it at the end (track.py:4799).

    Trackers may be in different processes: any interleaving of their steps.  A round is two
    steps, one that reads and computes and one that writes; the code writes only blocks with
    merges, the model the whole field. *)
From Coq Require Import String.
From Verif Require Import Base Graph Morph Label Overlap Merge Cluster Parallel Run MeshRun.
Open Scope nat_scope.

(** A tracker with its settings and preprocessed data (track.py:400-489, 1370). *)
Record job := mkJob {
  j_dir : string; j_mesh : mesh; j_mask : list bool; j_w : list Q; j_cent : list bool -> Q * Q; j_thr : Q;
  j_part : list Z -> list bool -> list Z -> list Z -> result par_err (list Z); j_order : list Z -> list Z;
  j_tc : nat; j_limit : nat; j_data : list (list bool) }.

(** marEx_temp_field.zarr in each directory (track.py:1044, 1748). *)
Definition disk := string -> option (list (list Z)).
(** Deleting and writing the store (track.py:1044-1045, 1748, 4346-4349). *)
Definition put (d : disk) (dir : string) (v : option (list (list Z))) : disk :=
  fun x => if String.eqb x dir then v else d x.

(** Reading a store that is gone (track.py:1752, 4365), or a failure of tracking itself. *)
Inductive scratch_err := StoreGone | TrackingFails (e : mesh_err).
(** What a run ends with (track.py:1400). *)
Definition outcome := result scratch_err (events * merges).
(** Local variables of the loop (track.py:4678-4692). *)
Record rounds := mkRounds { r_counter : Z; r_events : list event; r_objs : list Z; r_done : list Z; r_it : nat; r_fuel : nat }.
(** Where a tracker is: not built, built, objects written, before a round, before the writing of
    a round, finished (track.py:1041, 2765, 4691, 4346, 4799). *)
Inductive stage := New | Built | Refreshed | Before (r : rounds) | Writing (f : option (list (list Z))) (r : rounds) | Done (o : outcome).

(** What run_tracking passes on (track.py:1400). *)
Definition with_err (r : result mesh_err (events * merges)) : outcome :=
  match r with Ok x => Ok x | Err e => Err (TrackingFails e) end.

(** One step of a tracker (track.py:1041-1045, 2757-2778, 4691-4745, 4799-4807). *)
Definition step (j : job) (s : stage) (d : disk) : stage * disk :=
  match s with
  | New => (Built, put d (j_dir j) None)
  | Built => (Refreshed, put d (j_dir j) (Some (mesh_objects (j_mesh j) (j_mask j) (j_data j))))
  | Refreshed =>
    match d (j_dir j) with
    | None => (Done (Err StoreGone), d)
    | Some f =>
      match initial_props (j_w j) (j_cent j) f with
      | [] => (Done (Err (TrackingFails NoObjects)), d)
      | ps => (Before (mkRounds (arr_max (prop_ids ps) + 1) []
                  (merging_children (enforce_threshold (j_thr j) ps (find_overlapping (j_w j) f))) [] 0 (j_limit j)), d)
      end
    end
  | Before r =>
    match r_objs r, r_fuel r with
    | [], _ | _, 0 =>
      if Nat.eqb (r_it r) (j_limit j) then (Done (Err (TrackingFails (MergeFails MaxIteration))), d)
      else match d (j_dir j) with
           | None => (Done (Err StoreGone), d)
           | Some f => (Done (with_err (mesh_events (j_w j) (j_cent j) (j_thr j) (mkPState f None (r_counter r) (r_events r)))), d)
           end
    | _, S k =>
      match d (j_dir j) with
      | None => (Done (Err StoreGone), d)
      | Some f =>
        match iteration (j_w j) (j_thr j) (j_part j) (j_tc j) (mkPState f (Some f) (r_counter r) (r_events r)) (j_order j (r_objs r)) with
        | Err e => (Done (Err (TrackingFails (MergeFails e))), d)
        | Ok (s', new) =>
          (Writing (pt_store s') (mkRounds (pt_counter s') (pt_events s') (set_minus new (r_done r)) (new ++ r_done r) (S (r_it r)) k), d)
        end
      end
    end
  | Writing f r => (Before r, put d (j_dir j) f)
  | Done o => (Done o, d)
  end.

(** All trackers and the file system; a schedule names the tracker that acts next
    (track.py:1041-1045, 1728-1753, 4273-4367 on one file system). *)
Definition world := ((nat -> stage) * disk)%type.
Definition act (jobs : nat -> job) (w : world) (i : nat) : world :=
  let (s, d) := step (jobs i) (fst w i) (snd w) in (fun k => if Nat.eqb k i then s else fst w k, d).
Definition executed (jobs : nat -> job) (w : world) (sched : list nat) : world := fold_left (act jobs) sched w.
