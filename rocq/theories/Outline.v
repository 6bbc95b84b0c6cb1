(** Model of the outlines animate draws around the objects of object_ids: the choice of the step
    (base.py:505-512) and the contour in make_frame (base.py:678-710).

    Every error on the way is swallowed and leaves the frame without outline.  An outline is
    the mask that is contoured at 0.5; ax.contour refuses masks of another shape than
    latitudes times longitudes and fewer than two of either.  Where the line runs between the
    cells of the mask is matplotlib's; around a mask without a cell left out it draws none. *)
From Coq Require Import String.
From Verif Require Import Base Plot.
Open Scope nat_scope.

(** An ID, None for NaN (base.py:684). *)
Notation cell := (option Z).
(** object_ids: whether it has the time dimension of the animation, its times and its steps,
    latitude by longitude in that order (base.py:505-508). *)
Record id_record := mkIds { o_has_time : bool; o_times : list Z; o_steps : list (list (list cell)) }.
(** The animated array: its times, latitudes and longitudes; [a_mesh]: the plotter has the two
    paths of an unstructured one (base.py:470-477, 487, 688). *)
Record animated := mkAnimated { a_times : list Z; a_ny : nat; a_nx : nat; a_mesh : bool }.

(** object_ids.isel({time_dim: time_ind}) in a try (base.py:505-512). *)
Definition ids_at (ids : option id_record) (i : nat) : option (list (list cell)) :=
  match ids with
  | None => None
  | Some r => if o_has_time r then nth_error (o_steps r) i else None
  end.
(** object_ids_np > 0 (base.py:684). *)
Definition has_object (c : cell) : bool := match c with Some z => Z.ltb 0 z | None => false end.
(** The mask of a step (base.py:684). *)
Definition object_mask (step : list (list cell)) : list (list bool) := map (map has_object) step.
(** np.any (base.py:686). *)
Definition any_object (m : list (list bool)) : bool := existsb (fun row => existsb (fun b => b) row) m.
(** The arguments ax.contour takes (base.py:698-707). *)
Definition contour_takes (ny nx : nat) (m : list (list bool)) : bool :=
  Nat.leb 2 ny && Nat.leb 2 nx && Nat.eqb (length m) ny && forallb (fun row => Nat.eqb (length row) nx) m.
(** The mask outlined in frame i (base.py:678-710). *)
Definition outline (a : animated) (ids : option id_record) (i : nat) : option (list (list bool)) :=
  match ids_at ids i with
  | None => None
  | Some step =>
    let m := object_mask step in
    if any_object m then if a_mesh a then None else if contour_takes (a_ny a) (a_nx a) m then Some m else None
    else None
  end.
(** One frame per time of the array, in order (base.py:487). *)
Definition outlines (a : animated) (ids : option id_record) : list (Z * option (list (list bool))) :=
  map (fun p => (snd p, outline a ids (fst p))) (combine (seq 0 (length (a_times a))) (a_times a)).

(** centroids: whether it has the time dimension, its times and for each the latitude and
    longitude of every ID (base.py:496-500, 722-733). *)
Record centroid_record := mkCentroids { k_has_time : bool; k_times : list Z; k_tables : list (list (Z * (option Q * option Q))) }.
(** centroid_data.isel({time_dim: time_ind}) in a try; no points on an error (base.py:495-502, 713-714). *)
Definition points_of (data : list (option Q)) (k : option centroid_record) (i : nat) : list (Q * Q) :=
  match k with
  | None => []
  | Some r => if k_has_time r then match nth_error (k_tables r) i with Some table => frame_centroids data None table | None => [] end else []
  end.
(** The points of all frames, one per time and step of the array (base.py:487-514). *)
Fixpoint points_from (i : nat) (times : list Z) (data : list (list (option Q))) (k : option centroid_record) : list (Z * list (Q * Q)) :=
  match times, data with
  | t :: times, d :: data => (t, points_of d k i) :: points_from (S i) times data k
  | _, _ => []
  end.
(** base.py:487-514. *)
Definition points times data k := points_from 0 times data k.
