(** Model of the partitioning of a merged object on structured grids.
    Source: /repo/marEx/track.py:4827-5113 (numba helpers) and 3486-3557 (their
    use).

    Cells are numbered row by row: cell k is at row k / nx and column k mod nx,
    the order of numpy.nonzero.  Distances are kept squared, as exact rationals:
    the code takes square roots and compares them with each other, with
    max_distance and with 1e-6, so comparisons are the same on squares.  The
    parallel loops of numba write disjoint entries, one per child cell, and are
    modelled cell by cell.  fastmath rounding is not modelled. *)
From Coq Require Import Qround.
From Verif Require Import Base Filter Overlap.
Open Scope nat_scope.

Definition natQ (n : nat) : Q := inject_Z (Z.of_nat n).
Definition cell_y (nx k : nat) : nat := k / nx.
Definition cell_x (nx k : nat) : nat := k mod nx.

(** numpy.nonzero of a mask (track.py:5016, 5024). *)
Definition points (mask : list bool) : list nat :=
  filter (fun k => nth k mask false) (seq 0 (length mask)).

(** wrapped_euclidian_distance_points (track.py:4936-4969), squared. *)
Definition wrap_dx (nx : nat) (dx : Q) : Q :=
  let half := (natQ nx / 2)%Q in
  if Qltb half dx then (dx - natQ nx)%Q
  else if Qltb dx (- half) then (dx + natQ nx)%Q else dx.
Definition dist2 (wrap : bool) (nx : nat) (y1 x1 y2 x2 : Q) : Q :=
  let dy := (y1 - y2)%Q in
  let dx := (x1 - x2)%Q in
  let dx := if wrap then wrap_dx nx dx else dx in
  (dy * dy + dx * dx)%Q.

(** wrapped_euclidian_distance_mask_parallel (track.py:4827-4886): the two
    numpy.where corrections are applied one after the other. *)
Definition wrap_dx2 (nx : nat) (dx : Q) : Q :=
  let half := (natQ nx / 2)%Q in
  let dx := if Qltb half dx then (dx - natQ nx)%Q else dx in
  if Qltb dx (- half) then (dx + natQ nx)%Q else dx.
Definition dist2_mask (wrap : bool) (nx : nat) (y1 x1 y2 x2 : Q) : Q :=
  let dy := (y1 - y2)%Q in
  let dx := (x1 - x2)%Q in
  let dx := if wrap then wrap_dx2 nx dx else dx in
  (dy * dy + dx * dx)%Q.

(** create_grid_index_arrays (track.py:4888-4932): bins of [g] x [g] cells, each
    with room for as many points as there are. *)
Definition n_bins (g n : nat) : nat := (n + g - 1) / g.
Definition bin_of (g n v : nat) : nat := Nat.min (v / g) (n_bins g n - 1).
Definition table := nat -> nat -> list nat.
Definition index_point (g ny nx cap : nat) (tb : table) (k : nat) : table :=
  let by_ := bin_of g ny (cell_y nx k) in
  let bx := bin_of g nx (cell_x nx k) in
  if Nat.ltb (length (tb by_ bx)) cap
  then fun i j => if Nat.eqb i by_ && Nat.eqb j bx then tb i j ++ [k] else tb i j
  else tb.
Definition grid_index (g ny nx : nat) (pts : list nat) : table :=
  fold_left (index_point g ny nx (length pts)) pts (fun _ _ => []).

(** The nine bins around the bin of a child cell, wrapping in both directions
    (track.py:5045-5050). *)
Definition bin_shift (n i : nat) (d : Z) : nat := Z.to_nat ((Z.of_nat i + d) mod Z.of_nat n).
Definition bins_around (g ny nx k : nat) : list (nat * nat) :=
  let by_ := bin_of g ny (cell_y nx k) in
  let bx := bin_of g nx (cell_x nx k) in
  list_prod (map (bin_shift (n_bins g ny) by_) [(-1)%Z; 0%Z; 1%Z])
            (map (bin_shift (n_bins g nx) bx) [(-1)%Z; 0%Z; 1%Z]).

Definition cell_dist2 (wrap : bool) (nx a b : nat) : Q :=
  dist2 wrap nx (natQ (cell_y nx a)) (natQ (cell_x nx a)) (natQ (cell_y nx b)) (natQ (cell_x nx b)).

(** Scanning the candidate points of one parent (track.py:5052-5077): points
    further than max_distance are skipped, the scan stops at a coinciding point.
    Result: smallest distance found (None is inf) and whether a coinciding point
    was found. *)
Definition lt_opt (d : Q) (o : option Q) : bool := match o with None => true | Some m => Qltb d m end.
Definition eps2 : Q := 1 # 1000000000000.
Fixpoint scan (wrap : bool) (nx : nat) (max2 : Q) (k : nat) (pts : list nat) (best : option Q) : option Q * bool :=
  match pts with
  | [] => (best, false)
  | p :: r =>
    let d := cell_dist2 wrap nx k p in
    if Qltb max2 d then scan wrap nx max2 k r best
    else
      let best' := if lt_opt d best then Some d else best in
      if Qltb d eps2 then (Some d, true) else scan wrap nx max2 k r best'
  end.

(** State of one child cell: best distance, assigned parent, found_close (track.py:5019-5021). *)
Record search := mkSearch { se_best : option Q; se_parent : nat; se_found : bool }.

(** One parent (track.py:5023-5082). *)
Definition visit_parent (g ny nx : nat) (wrap : bool) (max2 : Q) (k : nat)
    (st : search) (parent : nat * list nat) : search :=
  let (idx, pts) := parent in
  match pts with
  | [] => st
  | _ =>
    if se_found st then st else
    let tb := grid_index g ny nx pts in
    let cand := flat_map (fun b => tb (fst b) (snd b)) (bins_around g ny nx k) in
    let (m, found) := scan wrap nx max2 k cand None in
    match m with
    | Some d => if lt_opt d (se_best st) then mkSearch (Some d) idx found
                else mkSearch (se_best st) (se_parent st) found
    | None => mkSearch (se_best st) (se_parent st) found
    end
  end.

(** First parent centroid at the smallest distance (track.py:5084-5108). *)
Fixpoint nearest_from (ds : list Q) (idx : nat) (best : option Q) (arg : nat) : nat :=
  match ds with
  | [] => arg
  | d :: r => if lt_opt d best then nearest_from r (S idx) (Some d) idx else nearest_from r (S idx) best arg
  end.
Definition nearest (ds : list Q) : nat := nearest_from ds 0 None 0.

Definition centroid_dist2 (dist : bool -> nat -> Q -> Q -> Q -> Q -> Q) (wrap : bool) (nx k : nat) (c : Q * Q) : Q :=
  dist wrap nx (natQ (cell_y nx k)) (natQ (cell_x nx k)) (fst c) (snd c).

(** partition_nn_grid (track.py:4973-5113): index of the parent assigned to
    child cell [k]. *)
Definition bin_size (max_d : nat) : nat := Nat.max 2 (max_d / 4).
Definition nn_parent (ny nx : nat) (wrap : bool) (max_d : nat) (parents : list (list nat)) (cents : list (Q * Q))
    (k : nat) : nat :=
  let g := bin_size max_d in
  let max2 := (natQ max_d * natQ max_d)%Q in
  let st := fold_left (visit_parent g ny nx wrap max2 k) (combine (seq 0 (length parents)) parents)
              (mkSearch None 0 false) in
  match se_best st with
  | Some _ => se_parent st
  | None => nearest (map (centroid_dist2 dist2 wrap nx k) cents)
  end.
Definition partition_nn_grid (ny nx : nat) (wrap : bool) (max_d : nat) (child : list bool)
    (parent_masks : list (list bool)) (child_ids : list Z) (cents : list (Q * Q)) : list Z :=
  map (fun k => nth (nn_parent ny nx wrap max_d (map points parent_masks) cents k) child_ids 0%Z) (points child).

(** Centroid partitioning: argmin of the distance rows (track.py:3550-3557);
    numpy.argmin takes the first minimum. *)
Definition partition_centroid (nx : nat) (wrap : bool) (child : list bool) (child_ids : list Z)
    (cents : list (Q * Q)) : list Z :=
  map (fun k => nth (nearest (map (centroid_dist2 dist2_mask wrap nx k) cents)) child_ids 0%Z) (points child).

(** The call from the merging loop (track.py:3486-3557). int(sqrt(a) * 3.0) of
    the largest parent area is the integer square root of 9 a. *)
Definition parent_centroid (ps : props) (id : Z) : Q * Q :=
  match lookup id ps with Some p => p_cent p | None => (0%Q, 0%Q) end.
Definition parent_area (ps : props) (id : Z) : Q :=
  match lookup id ps with Some p => p_area p | None => 0%Q end.
Definition Qmaxb (a b : Q) : Q := if Qle_bool a b then b else a.
Definition search_distance (ps : props) (parents : list Z) : nat :=
  let a := fold_right Qmaxb 0%Q (map (parent_area ps) parents) in
  Nat.max (Z.to_nat (Z.sqrt (Qfloor (9 * a)))) 40.
Definition part_grid (nn regional : bool) (ny nx : nat)
    (ps : props) (prev : list Z) (mask : list bool) (parents : list Z) (child_ids : list Z) : list Z :=
  let cents := map (parent_centroid ps) parents in
  if nn then
    partition_nn_grid ny nx (negb regional) (search_distance ps parents) mask
      (map (fun p => mask_of p prev) parents) child_ids cents
  else partition_centroid nx (negb regional) mask child_ids cents.
