(** Model of the overlap functions of the tracker: check_overlap_slice,
    find_overlapping_objects, enforce_overlap_threshold and
    consolidate_object_ids.  Source: /repo/marEx/track.py:2396-2656.

    A field at one time step is the flat list of its object IDs.  Cell areas are
    rationals; on a structured grid the code counts pixels, which is the case
    where every cell area is 1.  int32/int64 wrap-around is not modelled; float32
    and float64 rounding of these functions is modelled in Rounding.v. *)
From Verif Require Import Base Filter.
Open Scope nat_scope.

(** One row [id_t0, id_next, area] of an overlap list (track.py:2450, 2502). *)
Record row := mkRow { r_from : Z; r_to : Z; r_area : Q }.

(** np.add.at and np.sum over an array, track.py:2438-2439, 2498-2499. *)
Fixpoint sumQ (l : list Q) : Q := match l with [] => 0%Q | x :: r => (x + sumQ r)%Q end.

(** Cells of two fields together with their area (track.py:2423-2424, 2437). *)
Definition cells3 (w : list Q) (a b : list Z) : list (Z * Z * Q) := combine (combine a b) w.
(** ids_t0_valid, track.py:2423. *)
Definition c_from (c : Z * Z * Q) : Z := fst (fst c).
(** ids_next_valid, track.py:2424. *)
Definition c_to (c : Z * Z * Q) : Z := snd (fst c).

(** track.py:2412-2417: both fields carry an ID. *)
Definition both_pos (c : Z * Z * Q) : bool := Z.ltb 0 (c_from c) && Z.ltb 0 (c_to c).

(** numpy.unique of the integer codes, ascending (track.py:2433, 2442). *)
Definition unique_codes (l : list Z) : list Z := fold_right insert_uniq [] l.

(** ndarray.max over a non-empty array (track.py:2428). *)
Fixpoint list_max (d : Z) (l : list Z) : Z :=
  match l with [] => d | x :: r => list_max (Z.max d x) r end.
(** ids.max(), track.py:2428. *)
Definition arr_max (l : list Z) : Z := match l with [] => 0%Z | x :: r => list_max x r end.

(** track.py:2428: the base of the pair encoding. *)
Definition pair_base (a b : list Z) : Z := Z.max (arr_max a) (arr_max b + 1).

(** check_overlap_slice (track.py:2396-2452); structured grids are [w] all 1. *)
Definition check_overlap (w : list Q) (a b : list Z) : list row :=
  let valid := filter both_pos (cells3 w a b) in
  match valid with
  | [] => []
  | _ =>
    let m := pair_base a b in
    let code c := (c_from c * m + c_to c)%Z in
    map (fun k => mkRow (k / m) (k mod m)
                        (sumQ (map snd (filter (fun c => Z.eqb (code c) k) valid))))
        (unique_codes (map code valid))
  end.

(** numpy.unique(..., axis=0) on the first two columns: lexicographic order
    (track.py:2493). *)
Definition pair_ltb (p q : Z * Z) : bool :=
  Z.ltb (fst p) (fst q) || (Z.eqb (fst p) (fst q) && Z.ltb (snd p) (snd q)).
(** track.py:2493. *)
Definition pair_eqb (p q : Z * Z) : bool := Z.eqb (fst p) (fst q) && Z.eqb (snd p) (snd q).
(** track.py:2493. *)
Fixpoint insert_pair (p : Z * Z) (l : list (Z * Z)) : list (Z * Z) :=
  match l with
  | [] => [p]
  | q :: r => if pair_ltb p q then p :: l else if pair_eqb p q then l else q :: insert_pair p r
  end.
(** np.unique(..., axis=0), track.py:2493. *)
Definition unique_pairs (l : list (Z * Z)) : list (Z * Z) := fold_right insert_pair [] l.
(** all_pairs_with_areas[:, :2], track.py:2493. *)
Definition row_pair (r : row) : Z * Z := (r_from r, r_to r).

(** shift by -1 with fill value 0 (track.py:2474). *)
Definition shifted (fields : list (list Z)) : list (list Z) :=
  match fields with
  | [] => []
  | f :: r => r ++ [map (fun _ => 0%Z) f]
  end.

(** find_overlapping_objects (track.py:2454-2504). *)
Definition find_overlapping (w : list Q) (fields : list (list Z)) : list row :=
  let all := flat_map (fun p => check_overlap w (fst p) (snd p)) (combine fields (shifted fields)) in
  map (fun p => mkRow (fst p) (snd p)
                  (sumQ (map r_area (filter (fun r => pair_eqb (row_pair r) p) all))))
      (unique_pairs (map row_pair all)).

(** One entry of object_props: area and centroid (y, x) (track.py:2769). *)
Record prop := mkProp { p_area : Q; p_cent : Q * Q }.
(** object_props indexed by ID, track.py:2769. *)
Definition props := list (Z * prop).
(** object_props.ID.values, track.py:2530. *)
Definition prop_ids (ps : props) : list Z := map fst ps.
(** object_props.sel(ID=id); IDs are unique in the table (track.py:2539-2540). *)
Fixpoint lookup (id : Z) (ps : props) : option prop :=
  match ps with
  | [] => None
  | (k, p) :: r => if Z.eqb k id then Some p else lookup id r
  end.

(** np.minimum, track.py:2541. *)
Definition Qminb (a b : Q) : Q := if Qle_bool a b then a else b.

(** enforce_overlap_threshold (track.py:2506-2552).  The early returns on empty
    lists give the empty list as well.  Division by a zero area, which numpy
    turns into inf or nan, does not occur for objects with cells. *)
Definition over_threshold (thr : Q) (ps : props) (r : row) : bool :=
  match lookup (r_from r) ps, lookup (r_to r) ps with
  | Some p0, Some p1 => Qle_bool thr (r_area r / Qminb (p_area p0) (p_area p1))
  | _, _ => false
  end.
(** track.py:2526-2552. *)
Definition enforce_threshold (thr : Q) (ps : props) (l : list row) : list row :=
  filter (over_threshold thr ps) l.

(** calculate_object_properties for one time step, properties area and centroid
    (track.py:2109-2390): one entry per positive ID in ascending order; [cent]
    is the centroid of a set of cells (modelled in Centroid.v). *)
Section Props.
Variable w : list Q.
Variable cent : list bool -> Q * Q.

Definition mask_of (id : Z) (f : list Z) : list bool := map (Z.eqb id) f.
Definition area_of (id : Z) (f : list Z) : Q :=
  sumQ (map snd (filter (fun c => Z.eqb id (fst c)) (combine f w))).
Definition measure (id : Z) (f : list Z) : prop := mkProp (area_of id f) (cent (mask_of id f)).
Definition object_properties (f : list Z) : props :=
  map (fun id => (id, measure id f)) (unique_pos f).

(** object_props.drop_sel(ID=id) (track.py:2636). *)
Definition drop_id (id : Z) (ps : props) : props := filter (fun e => negb (Z.eqb (fst e) id)) ps.
(** object_props.loc[ID=id] = p (track.py:2652-2654). *)
Definition set_prop (id : Z) (p : prop) (ps : props) : props :=
  map (fun e => if Z.eqb (fst e) id then (id, p) else e) ps.

(** data.where(data != a, b) (track.py:2632). *)
Definition rename (a b : Z) (f : list Z) : list Z := map (fun v => if Z.eqb v a then b else v) f.

(** The inner loop of consolidate_object_ids over the other children of one
    parent (track.py:2625-2639). *)
Definition rename_child (first : Z) (st : list Z * props) (child : Z) : list Z * props :=
  let (f, ps) := st in
  if memZ child (prop_ids ps) then (rename child first f, drop_id child ps) else st.

(** One iteration over the splitting parents (track.py:2607-2654).  The second
    test for an empty mask and for a missing ID are the same test here. *)
Definition consolidate_parent (overlaps : list row) (st : list Z * props) (parent : Z) : list Z * props :=
  let (f, ps) := st in
  if negb (memZ parent (prop_ids ps)) then st else
  match map r_to (filter (fun r => Z.eqb (r_from r) parent) overlaps) with
  | first :: rest =>
    match rest with
    | [] => st
    | _ =>
      if negb (memZ first (prop_ids ps)) then st else
      let (f', ps') := fold_left (rename_child first) rest (f, ps) in
      if memZ first f' then
        (f', set_prop first (measure first (map (fun v => if Z.eqb v first then first else 0%Z) f')) ps')
      else (f', ps')
    end
  | [] => st
  end.

(** consolidate_object_ids (track.py:2554-2656): fields at t-2 and t-1. *)
Definition splitting_parents (overlaps : list row) : list Z :=
  filter (fun p => Nat.ltb 1 (count (fun r => Z.eqb (r_from r) p) overlaps))
         (unique_codes (map r_from overlaps)).
Definition consolidate (thr : Q) (f2 f1 : list Z) (ps : props) : list Z * props :=
  let ov := enforce_threshold thr ps (check_overlap w f2 f1) in
  fold_left (consolidate_parent ov) (splitting_parents ov) (f1, ps).
End Props.
