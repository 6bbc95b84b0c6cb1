(** Model of the clustering of objects into events and of the event properties,
    cluster_rename_objects_and_props.  Source: /repo/marEx/track.py:2809-3331.

    Fields are flat per time step.  Times are indices, and the time coordinate is
    taken to be injective (the code looks the merges of a step up by time value).
    Chunking is not modelled: every step here works on one time step. *)
From Verif Require Import Base Graph Label Filter Overlap Merge Partition.
Open Scope nat_scope.

(** ** Event IDs (track.py:2836-2926) *)

(** numpy.unique followed by "> 0" (track.py:2841-2851). *)
Definition positive_ids (l : list Z) : list Z := filter (Z.ltb 0) (unique_codes l).
(** all_valid_ids (track.py:2853). *)
Definition valid_ids (fields : list (list Z)) (pairs : list (Z * Z)) : list Z :=
  unique_codes (positive_ids (flat_map (fun p => [fst p; snd p]) pairs) ++ positive_ids (concat fields)).

(** original_to_dense (track.py:2859): position in all_valid_ids. *)
Fixpoint index_ofZ (x : Z) (l : list Z) : nat :=
  match l with
  | [] => 0
  | y :: r => if Z.eqb x y then 0 else S (index_ofZ x r)
  end.
(** overlap_pairs_dense (track.py:2867-2873): pairs with both IDs known. *)
Definition dense_pairs (ids : list Z) (pairs : list (Z * Z)) : list edge :=
  map (fun p => (index_ofZ (fst p) ids, index_ofZ (snd p) ids))
      (filter (fun p => memZ (fst p) ids && memZ (snd p) ids) pairs).

(** Ways the function fails: an empty array of pairs cannot be unpacked into two
    columns (line track.py:2876); an ID above the maximum of the field is outside the
    lookup array (line 2897). *)
Inductive cluster_err := UnpackError | IndexError.

(** ID_to_cluster_index_array (track.py:2887-2897): zeros, then event + 1 at the
    position of every known ID. *)
Definition set_at {A} (k : nat) (v : A) (l : list A) : list A :=
  firstn k l ++ match skipn k l with [] => [] | _ :: r => v :: r end.
Definition fill_table (max_id : Z) (ids : list Z) (comp : list nat) : result cluster_err (list Z) :=
  fold_left (fun acc p =>
      bind acc (fun tab =>
        if Z.leb (fst p) max_id then Ok (set_at (Z.to_nat (fst p)) (Z.of_nat (snd p) + 1)%Z tab)
        else Err IndexError))
    (combine ids comp) (Ok (repeat 0%Z (Z.to_nat (max_id + 1)))).

(** map_IDs_to_indices (track.py:2908-2913). *)
Definition map_ids (tab : list Z) (f : list Z) : list Z :=
  map (fun v => if Z.ltb 0 v then nth (Z.to_nat v) tab 0%Z else 0%Z) f.

(** Lookup table and number of components (track.py:2839-2897). *)
Definition event_table (fields : list (list Z)) (pairs : list (Z * Z)) : result cluster_err (list Z * nat) :=
  let max_id := arr_max (concat fields) in
  let ids := valid_ids fields pairs in
  let es := dense_pairs ids pairs in
  match pairs, es with
  | _ :: _, [] => Err UnpackError
  | _, _ =>
    bind (fill_table max_id ids (components (length ids) es)) (fun tab =>
      Ok (tab, n_components (length ids) es))
  end.

(** ** Original ID of every event at every time (track.py:2928-2994) *)

(** process_timestep: the pairs (original, new) of the labelled cells in
    lexicographic order, later pairs overwrite; [m] entries, entry i for the new
    ID i + 1 (track.py:2948-2971). *)
Definition original_ids (m : nat) (orig new : list Z) : list Z :=
  let valid := filter (fun p => Z.ltb 0 (snd p)) (combine orig new) in
  fold_left (fun acc p =>
      if Z.leb (snd p) (Z.of_nat m) then set_at (Z.to_nat (snd p - 1)) (fst p) acc else acc)
    (unique_pairs valid) (repeat 0%Z m).

(** ** Presence, first and last time (track.py:3108-3117) *)

(** numpy.argmax of booleans: the first True, 0 when there is none (track.py:3113). *)
Fixpoint first_true (l : list bool) : option nat :=
  match l with
  | [] => None
  | b :: r => if b then Some 0 else option_map S (first_true r)
  end.
(** track.py:3113, 3116. *)
Definition argmax_bool (l : list bool) : nat := match first_true l with Some k => k | None => 0 end.
(** one ID along time, track.py:3113, 3116. *)
Definition column {A} (d : A) (rows : list (list A)) (i : nat) : list A := map (fun r => nth i r d) rows.
(** time_start, track.py:3112-3114. *)
Definition start_of (col : list bool) : nat := argmax_bool col.
(** time_end, track.py:3115-3117. *)
Definition end_of (col : list bool) : nat := length col - 1 - argmax_bool (rev col).

(** ** Areas (track.py:3119-3231, the area part) *)

(** Area of every ID present at this time; NaN is None (track.py:3151, 3156-3179, 3216-3231). *)
Definition event_areas (ca : list Q) (field : list Z) (present : list bool) : list (option Q) :=
  map (fun i =>
         if nth i present false && memZ (Z.of_nat i + 1) field
         then Some (sumQ (map snd (filter (fun c => Z.eqb (Z.of_nat i + 1) (fst c)) (combine field ca))))
         else None)
      (seq 0 (length present)).

(** ** Merge ledger (track.py:3026-3106) *)

(** New IDs of the parents of a merge, in the padded row: entries that are not
    positive become index 0 of the lookup table, which is 0 (lines track.py:3031-3032).
    None is the KeyError of [sel] for an ID above the maximum. *)
Definition parent_events (tab : list Z) (row : list Z) : option (list Z) :=
  if forallb (fun p => Z.ltb p (Z.of_nat (length tab))) row
  then Some (map (fun p => nth (Z.to_nat (if Z.ltb 0 p then p else 0)) tab 0%Z) row)
  else None.

(** One assignment result.loc[time, ID in valid] = expanded[:, valid] for one
    sibling slot (lines track.py:3086-3093): the s-th row of [expanded] is the parent list
    itself, so the column of ID v receives v. *)
Definition write_slot (valid : list Z) (slot : list Z) : list Z :=
  fold_left (fun acc p => set_at (Z.to_nat (fst p - 1)) (snd p) acc) (combine valid valid) slot.
Definition write_merger (block : list (list Z)) (merger : list Z) : list (list Z) :=
  map (write_slot (filter (Z.ltb 0) merger)) block.
(** The block of one time step: sibling slots by IDs (track.py:3058-3095). *)
Definition ledger_at (m slots : nat) (merges : list (nat * list Z)) (t : nat) : list (list Z) :=
  fold_left write_merger (map snd (filter (fun e => Nat.eqb (fst e) t) merges))
    (repeat (repeat (-1)%Z m) slots).
(** transpose to (ID, sibling) for one time (line track.py:3106). *)
Definition ledger_rows (m : nat) (block : list (list Z)) : list (list Z) :=
  map (fun i => map (fun slot => nth i slot 0%Z) block) (seq 0 m).

(** ** The events dataset *)
(** track.py:2935, 2992, 3111-3117, 3106. *)
Record events := mkEvents {
  v_field : list (list Z);            (** ID_field [t][cell] *)
  v_count : nat;                      (** number of IDs *)
  v_global : list (list Z);           (** global_ID [t][ID] *)
  v_presence : list (list bool);      (** presence [t][ID] *)
  v_start : list nat;                 (** time_start [ID] *)
  v_end : list nat;                   (** time_end [ID] *)
  v_area : list (list (option Q));    (** area [t][ID] *)
  v_ledger : list (list (list Z))     (** merge_ledger [t][ID][sibling] *)
}.

(** the two places where the function fails: track.py:2876, 2897 and the selections of track.py:3032, 3093. *)
Inductive dataset_err := ClusterError (e : cluster_err) | LedgerKeyError.

(** One padding ID is added (lines track.py:2930-2931) and removed again at the end (line
    3331).  Properties copied from object_props are area and centroid, which are
    both recomputed; centroids are in Centroid.v. *)
Definition cluster_rename (ca : list Q) (fields : list (list Z)) (pairs : list (Z * Z)) (mg : merges)
  : result dataset_err events :=
  match event_table fields pairs with
  | Err e => Err (ClusterError e)
  | Ok (tab, n) =>
    let m := n + 1 in
    let new := map (map_ids tab) fields in
    let glob := map (fun p => original_ids m (fst p) (snd p)) (combine fields new) in
    let pres := map (map (Z.ltb 0)) glob in
    let areas := map (fun p => event_areas ca (fst p) (snd p)) (combine new pres) in
    let rows := map (parent_events tab) (m_parents mg) in
    if forallb (fun r => match r with Some _ => true | None => false end) rows then
      let recs := combine (m_time mg) (map (fun r => match r with Some l => l | None => [] end) rows) in
      let slots := max_len (m_parents mg) in
      let ledger := map (fun t => ledger_rows m (ledger_at m slots recs t)) (seq 0 (length fields)) in
      Ok (mkEvents new n
            (map (firstn n) glob) (map (firstn n) pres)
            (map (fun i => start_of (column false pres i)) (seq 0 n))
            (map (fun i => end_of (column false pres i)) (seq 0 n))
            (map (firstn n) areas) (map (firstn n) ledger))
    else Err LedgerKeyError
  end.

(** run_tracking with merging on a structured grid (track.py:1389-1399,
    2734-2807): objects per time step, merging by chunks, clustering, fillers set
    to 0; the number of events is the maximum of the field. *)
Section Tracking.
Variables (cent : list bool -> Q * Q) (thr : Q).
Variable part : props -> list Z -> list bool -> list Z -> list Z -> list Z.

(** Split a list into pieces of the given lengths (time chunks, track.py:3377-3386). *)
Fixpoint split_by {A} (sizes : list nat) (l : list A) : list (list A) :=
  match sizes with [] => [] | k :: r => firstn k l :: split_by r (skipn k l) end.

(** [lab] is the result of identify_objects(time_connectivity=False) as a list
    of time steps; [w] the weights of the overlap (1 per cell on structured
    grids), [ca] the physical cell areas (track.py:2769-2788). *)
Definition track_objects (w ca : list Q) (sizes : list nat) (lab : list (list Z)) : result dataset_err (events * merges) :=
  let st := split_and_merge w cent thr part (split_by sizes lab) in
  let mg := merge_dataset (s_events (snd st)) in
  bind (cluster_rename ca (fst st) (final_overlaps w thr (fst st) (snd st)) mg) (fun ev =>
    Ok (mkEvents (map (map (fun v => if Z.ltb 0 v then v else 0%Z)) (v_field ev)) (v_count ev) (v_global ev)
          (v_presence ev) (v_start ev) (v_end ev) (v_area ev) (v_ledger ev), mg)).

(** N_events (track.py:2805). *)
Definition n_events (ev : events) : Z := arr_max (concat (v_field ev)).
End Tracking.

(** The whole of run_tracking with allow_merging on a structured grid, from the
    preprocessed binary data (flattened (t, y, x)) to the events: [sizes] are the
    lengths of the time chunks (the slices isel(time), track.py:3386-3393). *)
Definition time_fields (nt ny nx : nat) (lab : list Z) : list (list Z) :=
  map (slice ny nx 0%Z lab) (seq 0 nt).
(** track.py:2738-2807. *)
Definition track_grid (nn regional : bool) (nt ny nx : nat) (cent : list bool -> Q * Q) (thr : Q) (ca : list Q)
    (sizes : list nat) (data : list bool) : result dataset_err (events * merges) :=
  track_objects cent thr (part_grid nn regional ny nx) (repeat 1%Q (ny * nx)) ca sizes
    (time_fields nt ny nx (fst (identify_grid regional false nt ny nx data))).
