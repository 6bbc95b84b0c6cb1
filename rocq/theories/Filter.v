(** Model of filter_small_objects and of the statistics computed by
    run_preprocess.  Source: /repo/marEx/track.py:1755-1906 and 1330-1351. *)
From Coq Require Import Qround.
From Verif Require Import Base Label Morph.
Open Scope nat_scope.

(** Which rule the constructor resolved to (track.py:712-748). *)
Inductive area_rule := ByAbsolute (a : Z) | ByQuartile (q : Q).
Definition is_absolute (r : area_rule) : bool := match r with ByAbsolute _ => true | _ => false end.

(** track.py:1821-1834, 1871-1884. *)
Inductive filter_err := NoObjects.

(** Sorted distinct positive IDs: numpy.unique(ids[ids > 0]) (track.py:1789) and
    the label order of skimage regionprops_table. *)
Fixpoint insert_uniq (x : Z) (l : list Z) : list Z :=
  match l with
  | [] => [x]
  | y :: r => if Z.ltb x y then x :: l else if Z.eqb x y then l else y :: insert_uniq x r
  end.
Definition unique_pos (l : list Z) : list Z :=
  fold_right insert_uniq [] (filter (Z.ltb 0) l).

Definition cells_with (id : Z) (l : list Z) : nat := count (Z.eqb id) l.

(** numpy.percentile with linear interpolation at the fraction [q] in [0,1];
    floats as exact rationals (track.py:1838, 1888). *)
Fixpoint insert_nat (x : nat) (l : list nat) : list nat :=
  match l with [] => [x] | y :: r => if Nat.leb x y then x :: l else y :: insert_nat x r end.
Definition sort_nat (l : list nat) : list nat := fold_right insert_nat [] l.
Definition nat_Q (n : nat) : Q := inject_Z (Z.of_nat n).
Definition percentile (q : Q) (areas : list nat) : Q :=
  let s := sort_nat areas in
  let n := length s in
  let pos := (q * nat_Q (n - 1))%Q in
  let lo := Z.to_nat (Qfloor pos) in
  let a := nat_Q (nth lo s 0) in
  let b := nat_Q (nth (Nat.min (S lo) (n - 1)) s 0) in
  (a + (b - a) * (pos - inject_Z (Qfloor pos)))%Q.

Definition threshold_of (r : area_rule) (areas : list nat) : Q :=
  match r with ByAbsolute a => inject_Z a | ByQuartile q => percentile q areas end.

Record filtered := mkFiltered {
  f_keep : list (list bool);      (** binary field after filtering, per time step *)
  f_threshold : Q;
  f_areas : list nat;             (** object_areas as returned *)
  f_before : nat;                 (** N_objects_unfiltered *)
  f_after : nat                   (** N_objects_filtered *)
}.

(** ** Structured grids (track.py:1868-1898) *)

(** Cells of one time step and their labels (track.py:1867-1868). *)
Definition slice_cells (ny nx t : nat) : list cell :=
  list_prod (list_prod [t] (seq 0 ny)) (seq 0 nx).
(** one time of object_id_field, track.py:1867. *)
Definition slice {A} (ny nx : nat) (d : A) (l : list A) (t : nat) : list A :=
  map (fun c => nth (flat ny nx c) l d) (slice_cells ny nx t).

(** calculate_object_properties (label and area = number of pixels) on every
    time step, concatenated in time order (track.py:2325-2380). *)
Definition slice_props (s : list Z) : list (Z * nat) :=
  map (fun id => (id, cells_with id s)) (unique_pos s).
Definition grid_props (slices : list (list Z)) : list (Z * nat) := flat_map slice_props slices.

(** object_ids_keep: IDs at or above the threshold, -1 otherwise, and the first
    entry overwritten by -1 (track.py:1890-1892). *)
Definition ids_keep (thr : Q) (props : list (Z * nat)) : list Z :=
  match map (fun p => if Qle_bool thr (nat_Q (snd p)) then fst p else (-1)%Z) props with
  | [] => []
  | _ :: r => (-1)%Z :: r
  end.

Definition filter_labelled (r : area_rule) (slices : list (list Z)) (n_before : nat)
  : result filter_err filtered :=
  let props := grid_props slices in
  let areas := map snd props in
  match props with
  | [] => Err NoObjects
  | _ =>
    let thr := threshold_of r areas in
    let keep := ids_keep thr props in
    Ok (mkFiltered (map (map (fun id => memZ id keep)) slices) thr areas n_before
          (count (Z.ltb 0) keep))
  end.

(** filter_small_objects on a structured field of [nt] x [ny] x [nx] cells (track.py:1777-1778, 1863-1906). *)
Definition filter_grid (regional : bool) (r : area_rule) (nt ny nx : nat) (data : list bool)
  : result filter_err filtered :=
  let (lab, n) := identify_grid regional false nt ny nx data in
  filter_labelled r (map (slice ny nx 0%Z lab) (seq 0 nt)) n.

(** ** Unstructured meshes (track.py:1780-1866) *)

Definition maxZ (l : list Z) : Z := fold_right Z.max 0%Z l.
Definition max_id (fields : list (list Z)) : nat := Z.to_nat (maxZ (map maxZ fields)).

(** count_cluster_sizes: sizes and IDs padded with zeros to max_ID (track.py:1790-1793). *)
Definition pad0 {A} (z : A) (n : nat) (l : list A) : list A := l ++ repeat z (n - length l).
Definition cluster_sizes (n : nat) (ids : list Z) : list nat * list Z :=
  let u := unique_pos ids in
  (pad0 0 n (map (fun id => cells_with id ids) u), pad0 0%Z n u).

(** filter_area_binary, track.py:1841-1848. *)
Definition keep_mesh (thr : Q) (tbl : list nat * list Z) (ids : list Z) : list bool :=
  let keep := filter (Z.ltb 0)
       (map (fun p => if Qltb thr (nat_Q (fst p)) then snd p else 0%Z) (combine (fst tbl) (snd tbl))) in
  map (fun id => memZ id keep) ids.

(** track.py:1780-1861. *)
Definition filter_mesh (r : area_rule) (fields : list (list Z)) : result filter_err filtered :=
  let n := max_id fields in
  let tbls := map (cluster_sizes n) fields in
  let sizes := flat_map fst tbls in
  let pre := filter (Nat.ltb (if is_absolute r then 5 else 50)) sizes in
  match pre with
  | [] => Err NoObjects
  | _ =>
    let thr := threshold_of r pre in
    Ok (mkFiltered (map (fun p => keep_mesh thr (fst p) (snd p)) (combine tbls fields)) thr sizes
          (length pre) (count (fun a => Qltb thr (nat_Q a)) pre))
  end.

(** filter_small_objects on a mesh: label every time step, then filter (track.py:1777-1861). *)
Definition filter_small_mesh (r : area_rule) (m : mesh) (mask : list bool) (datas : list (list bool))
  : result filter_err filtered :=
  filter_mesh r (map (identify_mesh m mask) datas).

(** ** Statistics of run_preprocess (track.py:1330-1342) *)
Definition sumN (l : list nat) : nat := fold_right Nat.add 0 l.
Definition total_area_IDed (f : filtered) : nat := sumN (f_areas f).
Definition accepted_area (f : filtered) : nat :=
  sumN (filter (fun a => Qltb (f_threshold f) (nat_Q a)) (f_areas f)).
Definition accepted_area_fraction (f : filtered) : Q :=
  (nat_Q (accepted_area f) / nat_Q (total_area_IDed f))%Q.

(** ** IDs unique over time on meshes (track.py:2761-2764): per-time maximum,
    cumulative sum, shifted by one step. *)
Fixpoint cumulative (start : Z) (fields : list (list Z)) : list Z :=
  match fields with
  | [] => []
  | f :: r => start :: cumulative (start + maxZ f)%Z r
  end.
Definition offset_ids (fields : list (list Z)) : list (list Z) :=
  map (fun p => map (fun id => if Z.ltb 0 id then (id + snd p)%Z else 0%Z) (fst p))
      (combine fields (cumulative 0 fields)).
