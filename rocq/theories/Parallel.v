(** Model of the parallel splitting and merging used on unstructured meshes,
    split_and_merge_objects_parallel, and of compute_id_time_dict.
    Source: /repo/marEx/track.py:3804-4814 and 2658-2728.

    A field at one time is the flat list of its IDs.  Chunks are processed one
    after the other here; they only read the field of the iteration before and
    write disjoint results, so dask's order does not matter.  int32 wrap-around
    and float32 rounding are not modelled. *)
From Coq Require Import Qround.
From Verif Require Import Base Graph Label Filter Overlap Merge Partition Cluster MeshPart.
Open Scope nat_scope.

Definition max_merges_step : nat := 20.   (** MAX_MERGES, line track.py:3828 *)
Definition update_slots : nat := 255.     (** size of updates_ids, line track.py:3925 *)

(** What goes wrong: the TrackingErrors of lines track.py:3968, 4038, 4129 and 4733; numpy
    indexing past a buffer; a label array of the wrong shape; a block with a
    single time step, whose squeezed arrays cannot be indexed by time (3885-3886);
    more unique IDs in a time step than the pad of compute_id_time_dict (2690-2691). *)
Inductive par_err :=
  TooManyParents | TooManyMerges | ExcessiveMerges | MaxIteration
| BufferIndex | ShapeMismatch | OneStepBlock | PadTooSmall.

(** One recorded merge of a time step (rows of merge_child_ids, ...) (track.py:3919-3921, 4052-4054). *)
Record pmerge := mkPMerge { pm_children : list Z; pm_parents : list Z; pm_areas : list Q }.

(** State of a time step: data_t, next_new_id, recorded merges, updates_array,
    the used part of updates_ids (track.py:3919-3926). *)
Record pstep := mkPStep {
  ps_cur : list Z; ps_next : Z; ps_merges : list pmerge; ps_upd : list nat; ps_ids : list Z }.
(** track.py:3919-3926, 3935-3946. *)
Definition start_step (cur : list Z) (next : Z) : pstep :=
  mkPStep cur next [] (map (fun _ => unvisited) cur) [].

(** data[mask] (track.py:3956). *)
Definition masked (mask : list bool) (f : list Z) : list Z := map snd (filter fst (combine mask f)).
(** area[(prev == a) & (cur == b)].sum() (track.py:3989). *)
Definition shared_area (w : list Q) (a b : Z) (prev cur : list Z) : Q :=
  sumQ (map snd (filter (fun c => Z.eqb a (c_from c) && Z.eqb b (c_to c)) (cells3 w prev cur))).

Section Parallel.
Variable w : list Q.
Variable thr : Q.
(** Labels of the child's cells from the field before, the mask, the parent IDs
    and the child IDs (track.py:4058-4085). *)
Variable part : list Z -> list bool -> list Z -> list Z -> result par_err (list Z).

(** Loop over the potential parents (track.py:3966-4025); accepted (ID, overlap). *)
Fixpoint scan_parents (prev cur : list Z) (child : Z) (pots : list Z) (acc : list (Z * Q))
  : result par_err (list (Z * Q)) :=
  match pots with
  | [] => Ok acc
  | p :: r =>
    if Nat.leb max_parents (length acc) then Err TooManyParents
    else
      let ov := shared_area w p child prev cur in
      let least := Qminb (area_of w p prev) (area_of w child cur) in
      if Qltb (ov / least) thr then scan_parents prev cur child r acc
      else scan_parents prev cur child r (acc ++ [(p, ov)])
  end.

(** Recording where each new ID went (track.py:4093-4098). *)
Definition record_update (mask : list bool) (cur' : list Z) (s : result par_err (list nat * list Z)) (id : Z)
  : result par_err (list nat * list Z) :=
  bind s (fun ui =>
    let (upd, ids) := ui in
    if Nat.leb update_slots (length ids) then Err BufferIndex
    else Ok (map (fun c => if fst (fst c) && Z.eqb (snd (fst c)) id then length ids else snd c)
                 (combine (combine mask cur') upd), ids ++ [id])).

(** Objects of the next step to look at (track.py:4103-4117); note the strict comparison. *)
Definition next_objects (cur' nxt : list Z) (ids : list Z) : list Z :=
  flat_map (fun id =>
    filter (fun c => Qltb thr (shared_area w id c cur' nxt / Qminb (area_of w id cur') (area_of w c nxt)))
           (unique_pos (masked (mask_of id cur') nxt))) ids.

(** One merging object (track.py:3949-4145).  The queue of the next step is extended after
    all objects of this step instead of after each; nothing reads it before. *)
Definition process_child (prev nxt : list Z) (s : pstep) (child : Z) : result par_err (pstep * list Z) :=
  let cur := ps_cur s in
  let mask := mask_of child cur in
  bind (scan_parents prev cur child (unique_pos (masked mask prev)) []) (fun ps =>
    let n := length ps in
    if Nat.ltb n 2 then Ok (s, [])
    else
      let parents := map fst ps in
      let news := arangeZ (ps_next s) (n - 1) in
      let child_ids := child :: news in
      let idx := length (ps_merges s) in
      if Nat.ltb max_merges_step idx then Err TooManyMerges
      else if Nat.leb max_merges_step idx then Err BufferIndex
      else
        bind (part prev mask parents child_ids) (fun labels =>
          let cur' := assign mask labels cur in
          bind (fold_left (record_update mask cur') news (Ok (ps_upd s, ps_ids s))) (fun ui =>
            Ok (mkPStep cur' (ps_next s + Z.of_nat (n - 1))%Z
                  (ps_merges s ++ [mkPMerge child_ids parents (map snd ps)]) (fst ui) (snd ui),
                next_objects cur' nxt child_ids)))).
Fixpoint process_queue (prev nxt : list Z) (q : list Z) (s : pstep) : result par_err (pstep * list Z) :=
  match q with
  | [] => Ok (s, [])
  | c :: r =>
    bind (process_child prev nxt s c) (fun a =>
      bind (process_queue prev nxt r (fst a)) (fun b => Ok (fst b, snd a ++ snd b)))
  end.

(** Adding to the queue of the next step (track.py:4120-4124) or, at the end of the block,
    to final_merging_objects (4126-4145). *)
Definition enqueue (q : list Z) (c : Z) : list Z := if memZ c q then q else q ++ [c].
Definition enqueue_final (q : result par_err (list Z)) (c : Z) : result par_err (list Z) :=
  bind q (fun l =>
    if Nat.ltb max_merges_step (length l) then Err ExcessiveMerges
    else if memZ c l then Ok l
    else if Nat.leb max_merges_step (length l) then Err BufferIndex
    else Ok (l ++ [c])).

Fixpoint process_steps (prev cur : list Z) (nexts : list (list Z)) (queues : list (list Z)) (starts : list Z)
  : result par_err (list pstep * list Z) :=
  match nexts, queues, starts with
  | nxt :: nr, q :: qr, st :: sr =>
    bind (process_queue prev nxt q (start_step cur st)) (fun a =>
      match nr with
      | [] => bind (fold_left enqueue_final (snd a) (Ok [])) (fun fin => Ok ([fst a], fin))
      | _ =>
        let qr' := match qr with [] => [] | h :: t => fold_left enqueue (snd a) h :: t end in
        bind (process_steps (ps_cur (fst a)) nxt nr qr' sr) (fun b => Ok (fst a :: fst b, snd b))
      end)
  | _, _, _ => Ok ([], [])
  end.

(** process_chunk (track.py:3832-4156). *)
Definition process_chunk (m1 p1 : list (list Z)) (queues : list (list Z)) (starts : list Z)
  : result par_err (list pstep * list Z) :=
  match m1 with
  | prev :: cur :: _ => process_steps prev cur p1 queues starts
  | _ => Err OneStepBlock
  end.

(** ** compute_id_time_dict (track.py:2658-2728) *)

(** The pad (line track.py:2685); ValueError when a step has more unique IDs. *)
Definition pad_size (max_objects : Z) (nt : nat) : Z := Qfloor (inject_Z max_objects / inject_Z (Z.of_nat nt) * 100).
Definition pads_ok (max_objects : Z) (fields : list (list Z)) : bool :=
  forallb (fun f => Z.leb (Z.of_nat (length (unique_codes f))) (pad_size max_objects (length fields))) fields.
(** First time index an ID appears at, 0 if it does not; IDs from max_objects on
    are not in the dictionary (track.py:2720-2723). *)
Definition time_of (fields : list (list Z)) (id : Z) : nat := argmax_bool (map (memZ id) fields).
(** track.py:2706-2728. *)
Definition id_time (max_objects : Z) (fields : list (list Z)) (id : Z) : option nat :=
  if Z.leb 0 id && Z.ltb id max_objects then Some (time_of fields id) else None.

(** ** One iteration (track.py:4369-4660) *)

(** shift by one step with fill value 0 (track.py:4453). *)
Definition shift_m1 (fields : list (list Z)) : list (list Z) :=
  match fields with [] => [] | f :: _ => map (fun _ => 0%Z) f :: removelast fields end.
(** Sizes of the time blocks (track.py:4456-4459). *)
Definition block_sizes (tc nt : nat) : list nat :=
  repeat tc (nt / tc) ++ (if Nat.eqb (nt mod tc) 0 then [] else [nt mod tc]).

(** Objects per time step and their largest number (track.py:4422-4431). *)
Definition objects_at (counter : Z) (fields : list (list Z)) (objs : list Z) (t : nat) : list Z :=
  filter (fun b => match id_time counter fields b with Some k => Nat.eqb k t | None => false end) objs.
Definition most_objects (queues : list (list Z)) : nat := fold_right Nat.max 0 (map (@length Z) queues).
(** next_id_offsets (track.py:4441). *)
Definition id_starts (counter : Z) (tc : nat) (queues : list (list Z)) : list Z :=
  map (fun t => (Z.of_nat t * Z.of_nat (most_objects queues) * Z.of_nat tc + counter)%Z) (seq 0 (length queues)).

(** id_lookup (track.py:4563-4578): temporary IDs in ascending order. *)
Definition temp_ids (counter : Z) (steps : list pstep) : list Z :=
  filter (Z.ltb 0) (unique_codes (map (fun v => if Z.leb counter v then v else 0%Z)
    (flat_map (fun s => flat_map pm_children (ps_merges s)) steps))).
Definition permanent (counter : Z) (temps : list Z) (v : Z) : Z :=
  if memZ v temps then (counter + Z.of_nat (index_ofZ v temps))%Z else v.

(** update_time_chunk for one time step (track.py:4299-4321). *)
Definition apply_updates (rename : Z -> Z) (f : list Z) (s : pstep) : list Z :=
  map (fun c => if Nat.ltb (snd c) (length (ps_ids s)) then rename (nth (snd c) (ps_ids s) 0%Z) else fst c)
      (combine f (ps_upd s)).

(** update_object_id_field_zarr (track.py:4237-4367).  The store is made from the field
    when it is not there, then blocks with merges are rewritten from the field and
    everything is read back from the store. *)
Definition has_merge (s : pstep) : bool := match ps_merges s with [] => false | _ => true end.
Definition update_store (tc : nat) (rename : Z -> Z) (store : option (list (list Z))) (fields : list (list Z))
    (steps : list pstep) : list (list Z) * option (list (list Z)) :=
  if existsb has_merge steps then
    let base := match store with Some s => s | None => fields end in
    let sizes := block_sizes tc (length fields) in
    let new := concat (map (fun b =>
        let '(old, fs, ss) := b in
        if existsb has_merge ss then map (fun p => apply_updates rename (fst p) (snd p)) (combine fs ss) else old)
      (combine (combine (split_by sizes base) (split_by sizes fields)) (split_by sizes steps))) in
    (new, Some new)
  else (fields, store).

(** Merges of the iteration with permanent IDs, in time order (track.py:4612-4641). *)
Definition renamed_merges (rename : Z -> Z) (steps : list pstep) : list event :=
  flat_map (fun p => map (fun m => mkEvent (fst p) (map rename (pm_children m)) (map rename (pm_parents m)) (pm_areas m))
                         (ps_merges (snd p)))
           (combine (seq 0 (length steps)) steps).

Fixpoint collect {A} (l : list (result par_err A)) : result par_err (list A) :=
  match l with [] => Ok [] | r :: t => bind r (fun a => bind (collect t) (fun b => Ok (a :: b))) end.

Record pstate := mkPState {
  pt_fields : list (list Z); pt_store : option (list (list Z)); pt_counter : Z; pt_events : list event }.

Definition iteration (tc : nat) (s : pstate) (objs : list Z) : result par_err (pstate * list Z) :=
  let fields := pt_fields s in
  let counter := pt_counter s in
  if pads_ok counter fields then
    let queues := map (objects_at counter fields objs) (seq 0 (length fields)) in
    let sizes := block_sizes tc (length fields) in
    let blocks := combine (combine (split_by sizes (shift_m1 fields)) (split_by sizes (shifted fields)))
                    (combine (split_by sizes queues) (split_by sizes (id_starts counter tc queues))) in
    bind (collect (map (fun b => process_chunk (fst (fst b)) (snd (fst b)) (fst (snd b)) (snd (snd b))) blocks)) (fun outs =>
      let steps := flat_map fst outs in
      let temps := temp_ids counter steps in
      let rename := permanent counter temps in
      let (fields', store') := update_store tc rename (pt_store s) fields steps in
      Ok (mkPState fields' store' (counter + Z.of_nat (length temps))%Z (pt_events s ++ renamed_merges rename steps),
          map rename (filter (Z.ltb 0) (flat_map snd outs))))
  else Err PadTooSmall.

(** The main loop (track.py:4666-4728).  [order] is the order in which Python runs through
    a set. *)
Variable order : list Z -> list Z.
Definition set_minus (a b : list Z) : list Z := filter (fun x => negb (memZ x b)) (unique_codes a).
Fixpoint merge_loop (tc fuel : nat) (s : pstate) (objs processed : list Z) (it : nat) : result par_err (pstate * list Z * nat) :=
  match objs, fuel with
  | [], _ | _, 0 => Ok (s, objs, it)
  | _, S k =>
    bind (iteration tc s (order objs)) (fun r =>
      merge_loop tc k (fst r) (set_minus (snd r) processed) (snd r ++ processed) (S it))
  end.

(** split_and_merge_objects_parallel: initial overlaps from object_props, then
    the loop, then the check of the iteration count (track.py:4731-4745). [store] is the
    scratch store at the start: refresh_dask_graph has just written the field
    there (2765), so it is [Some fields] when called from track_objects. *)
Definition parallel_merge (tc max_iteration : nat) (ps : props) (store : option (list (list Z))) (fields : list (list Z))
  : result par_err pstate :=
  let ov := enforce_threshold thr ps (find_overlapping w fields) in
  let s0 := mkPState fields store (arr_max (prop_ids ps) + 1) [] in
  bind (merge_loop tc max_iteration s0 (merging_children ov) [] 0) (fun r =>
    if Nat.eqb (snd r) max_iteration then Err MaxIteration else Ok (fst (fst r))).
End Parallel.

(** ** The two partitionings in place *)

(** partition_nn_unstructured_optimised; child_ids[labels] fails when a label is
    not the index of a parent (track.py:4059-4075).  [reach] is max(int(2 sqrt(a)), 20) * 2. *)
Definition part_nn_mesh (nbs : list (list Z)) (dist : nat -> nat -> Q) (reach : list Z -> nat)
    (prev : list Z) (mask : list bool) (parents child_ids : list Z) : result par_err (list Z) :=
  let ls := partition_nn_mesh nbs dist (reach parents) mask (parent_frontier parents prev) in
  if forallb (fun l => Nat.ltb l (length child_ids)) ls
  then Ok (map (fun l => nth l child_ids 0%Z) ls) else Err BufferIndex.

(** partition_centroid_unstructured returns one label per cell of the mesh, and
    data_t[child_mask] = labels needs one per cell of the child (track.py:4082-4085). *)
Definition part_centroid_mesh (dist : nat -> nat -> Q) (junk : nat -> Z)
    (prev : list Z) (mask : list bool) (parents child_ids : list Z) : result par_err (list Z) :=
  let ls := partition_centroid_mesh dist junk mask child_ids in
  if Nat.eqb (length ls) (length (points mask)) then Ok ls else Err ShapeMismatch.
