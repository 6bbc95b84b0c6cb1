(** Model of the serial splitting and merging loop used on structured grids,
    split_and_merge_objects.  Source: /repo/marEx/track.py:3337-3802. *)
From Verif Require Import Base Filter Overlap.
Open Scope nat_scope.

(** One recorded merge (track.py:3476-3480): time index, child IDs, parent IDs,
    overlap areas. *)
Record event := mkEvent {
  e_time : nat; e_children : list Z; e_parents : list Z; e_areas : list Q }.

(** What the loop carries along: object_props, next_new_id, recorded merges in
    order (track.py:3365-3374). *)
Record mstate := mkState { s_props : props; s_next : Z; s_events : list event }.

(** numpy.arange(next, next + n) (track.py:3469). *)
Definition arangeZ (start : Z) (n : nat) : list Z := map (fun k => (start + Z.of_nat k)%Z) (seq 0 n).

(** temp[mask] = labels; data.where(~mask, temp) (track.py:3560-3562). *)
Fixpoint assign (mask : list bool) (labels : list Z) (f : list Z) : list Z :=
  match mask, f with
  | true :: m, _ :: r =>
    match labels with
    | l :: ls => l :: assign m ls r
    | [] => 0%Z :: assign m [] r
    end
  | false :: m, v :: r => v :: assign m labels r
  | _, _ => f
  end.

Section Loop.
Variable w : list Q.                       (** cell areas: all 1 on structured grids *)
Variable cent : list bool -> Q * Q.        (** centroid of a set of cells *)
Variable thr : Q.                          (** overlap_threshold *)
(** The partitioning of a child's cells among its parents (track.py:3486-3557):
    arguments object_props, field at t-1, mask of the child, parent IDs, child
    IDs; result the label of each cell of the child in index order.  The concrete
    functions are in Partition.v. *)
Variable part : props -> list Z -> list bool -> list Z -> list Z -> list Z.

(** np.unique(overlaps[:, 1]) with more than one row (track.py:3445-3446). *)
Definition merging_children (ov : list row) : list Z :=
  filter (fun c => Nat.ltb 1 (count (fun r => Z.eqb (r_to r) c) ov)) (unique_codes (map r_to ov)).

(** One merging child (track.py:3454-3591).  The code also writes the new IDs
    into the rows of this child in the overlap list (line 3473); no later child
    reads those rows and the list is recomputed after the loop, so this is left
    out.  Looking the parents up in object_props cannot fail: they passed
    enforce_overlap_threshold. *)
Definition divide_child (t : nat) (prev : list Z) (ov : list row)
    (st : list Z * mstate) (child : Z) : list Z * mstate :=
  let (cur, s) := st in
  let mask := mask_of child cur in
  let grp := filter (fun r => Z.eqb (r_to r) child) ov in
  let parents := map r_from grp in
  let n := length parents in
  let news := arangeZ (s_next s) (n - 1) in
  let next' := (s_next s + Z.of_nat (n - 1))%Z in
  let child_ids := child :: news in
  let ev := mkEvent t child_ids parents (map r_area grp) in
  let cur' := assign mask (part (s_props s) prev mask parents child_ids) cur in
  let nps := object_properties w cent cur' in
  let ps1 := match lookup child nps with
             | Some p => set_prop child p (s_props s)
             | None => drop_id child (s_props s)
             end in
  let ps2 := ps1 ++ filter (fun e => memZ (fst e) news) nps in
  (cur', mkState ps2 next' (s_events s ++ [ev])).

(** The while loop of one time step, at most 10 rounds (track.py:3433-3600). *)
Fixpoint settle (fuel : nat) (t : nat) (prev cur : list Z) (s : mstate) : list Z * mstate :=
  let ov := enforce_threshold thr (s_props s) (check_overlap w prev cur) in
  match fuel with
  | O => (cur, s)
  | S k =>
    match merging_children ov with
    | [] => (cur, s)
    | ch =>
      let (cur', s') := fold_left (divide_child t prev ov) ch (cur, s) in
      settle k t prev cur' s'
    end
  end.

Definition zeros_like (f : list Z) : list Z := map (fun _ => 0%Z) f.

Definition with_props (s : mstate) (ps : props) : mstate := mkState ps (s_next s) (s_events s).
Definition consolidate_st (f2 f1 : list Z) (s : mstate) : list Z * mstate :=
  let (f1', ps) := consolidate w cent thr f2 f1 (s_props s) in (f1', with_props s ps).

(** One chunk (track.py:3379-3624).  [prevc] is the previous chunk and [done]
    the steps of this chunk already processed, both latest first.  t-1 and t-2
    come from this chunk or the previous one exactly as in lines 3395-3420; t-1
    is consolidated unless this is the first step of the chunk; at the end of a
    chunk of at least two steps its last step is consolidated. *)
Fixpoint run_chunk (prevc done todo : list (list Z)) (t : nat) (s : mstate)
  : list (list Z) * mstate :=
  match todo with
  | [] =>
    match done with
    | last :: second :: r =>
      let (last', s') := consolidate_st second last s in (last' :: second :: r, s')
    | _ => (done, s)
    end
  | cur :: rest =>
    match done with
    | [] =>
      let prev := match prevc with p :: _ => p | [] => zeros_like cur end in
      let (cur', s') := settle 10 t prev cur s in
      run_chunk prevc [cur'] rest (S t) s'
    | m1 :: older =>
      let m2 := match older with
                | m2 :: _ => m2
                | [] => match prevc with p :: _ => p | [] => zeros_like cur end
                end in
      let (m1', s1) := consolidate_st m2 m1 s in
      let (cur', s') := settle 10 t m1' cur s1 in
      run_chunk prevc (cur' :: m1' :: older) rest (S t) s'
    end
  end.

(** All chunks in order; the result is latest first (track.py:3379-3639). *)
Fixpoint run_chunks (prevc : list (list Z)) (chunks : list (list (list Z))) (t : nat) (s : mstate)
  : list (list Z) * mstate :=
  match chunks with
  | [] => ([], s)
  | c :: r =>
    let (done, s1) := run_chunk prevc [] c t s in
    let (later, s2) := run_chunks done r (t + length c) s1 in
    (later ++ done, s2)
  end.

(** Initial object_props over all times (track.py:2769) and first new ID
    (track.py:3370); then the loop (track.py:3379-3639).  Returns the object
    field per time, object_props and merges. *)
Definition initial_props (fields : list (list Z)) : props := flat_map (object_properties w cent) fields.
Definition split_and_merge (chunks : list (list (list Z))) : list (list Z) * mstate :=
  let ps := initial_props (concat chunks) in
  let s0 := mkState ps (arr_max (prop_ids ps) + 1) [] in
  let (fields, s) := run_chunks [] chunks 0 s0 in
  (rev fields, s).

(** The overlap list handed to the clustering (track.py:3642-3643, 3800). *)
Definition final_overlaps (fields : list (list Z)) (s : mstate) : list (Z * Z) :=
  map row_pair (enforce_threshold thr (s_props s) (find_overlapping w fields)).
End Loop.

(** ** The merges dataset (track.py:3753-3793) *)

(** Rows padded with -1 to the longest row; n_parents and n_children are stored
    as int8.  overlap_areas has as many columns as parent_IDs; cell counts on grids
    (int32), areas on meshes (float32, rounding not modelled; track.py:4763-4800 is the same code). *)
Definition pad_to (n : nat) (l : list Z) : list Z := l ++ repeat (-1)%Z (n - length l).
Definition wrap_int8 (n : nat) : Z := ((Z.of_nat n + 128) mod 256 - 128)%Z.
Definition max_len (ls : list (list Z)) : nat :=
  match ls with [] => 1 | _ => fold_right Nat.max 0 (map (@length Z) ls) end.
Record merges := mkMerges {
  m_parents : list (list Z); m_children : list (list Z);
  m_time : list nat; m_n_parents : list Z; m_n_children : list Z; m_areas : list (list Q) }.
Definition pad_areas (n : nat) (l : list Q) : list Q := l ++ repeat (-1)%Q (n - length l).
Definition merge_dataset (evs : list event) : merges :=
  let ps := map e_parents evs in
  let cs := map e_children evs in
  mkMerges (map (pad_to (max_len ps)) ps) (map (pad_to (max_len cs)) cs)
    (map e_time evs) (map (fun l => wrap_int8 (length l)) ps) (map (fun l => wrap_int8 (length l)) cs)
    (map (fun e => pad_areas (max_len ps) (e_areas e)) evs).
