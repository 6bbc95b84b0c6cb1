(** Model of the partitioning of merged objects on unstructured meshes.
    Source: /repo/marEx/track.py:5246-5353 (partition_nn_unstructured_optimised)
    and 5357-5419 (partition_centroid_unstructured), used at 4058-4085.
    partition_nn_unstructured (5117-5243) is only called for unstructured grids
    from split_and_merge_objects, which is not used for them (2777); it is
    not modelled.

    Great circle distances are not computed: [dist k j] is the distance of cell k
    to row j of the array of parent centroids, which has max_parents rows whatever
    the number of parents; the rows beyond it hold the filler -1e10 (3959).
    Neighbour indices are taken to be below the number of cells. *)
From Verif Require Import Base Partition.
Open Scope nat_scope.

Definition unvisited : nat := 255.
Definition max_parents : nat := 10.

(** One neighbour direction of one parent (track.py:5303-5317): every unvisited
    cell that is this neighbour of a frontier cell joins the frontier, at once. *)
Definition reached (nb : list Z) (p : nat) (fr : list nat) (j : nat) : bool :=
  existsb (fun k => Nat.eqb (nth k fr unvisited) p && Z.eqb (nth k nb (-1)%Z) (Z.of_nat j)) (seq 0 (length fr)).
Definition expand_dir (nb : list Z) (p : nat) (fr : list nat) : list nat :=
  map (fun j => if Nat.eqb (nth j fr unvisited) unvisited && reached nb p fr j then p else nth j fr unvisited)
      (seq 0 (length fr)).
(** updates_made: a newly reached cell is in the child (track.py:5319-5320). *)
Definition grew (child : list bool) (fr fr' : list nat) : bool :=
  existsb (fun j => nth j child false && Nat.eqb (nth j fr unvisited) unvisited
                    && negb (Nat.eqb (nth j fr' unvisited) unvisited)) (seq 0 (length fr)).

(** One parent: its three directions one after the other, each from the frontier
    left by the one before (track.py:5302-5317). *)
Definition expand_parent (nbs : list (list Z)) (child : list bool) (st : list nat * bool) (p : nat) : list nat * bool :=
  if existsb (Nat.eqb p) (fst st) then
    fold_left (fun s nb => let fr' := expand_dir nb p (fst s) in (fr', snd s || grew child (fst s) fr')) nbs st
  else st.
(** All parents in turn (track.py:5294-5320). *)
Definition expand_round (nbs : list (list Z)) (child : list bool) (n_parents : nat) (fr : list nat) : list nat * bool :=
  fold_left (expand_parent nbs child) (seq 0 n_parents) (fr, false).

(** track.py:5290, 5325. *)
Definition any_unassigned (child : list bool) (fr : list nat) : bool :=
  existsb (fun p => fst p && Nat.eqb (snd p) unvisited) (combine child fr).
(** The loop (track.py:5292-5325). *)
Fixpoint spread (nbs : list (list Z)) (child : list bool) (n_parents max_d : nat) (fr : list nat) : list nat :=
  match max_d with
  | 0 => fr
  | S d =>
    if any_unassigned child fr then
      let (fr', upd) := expand_round nbs child n_parents fr in
      if upd then spread nbs child n_parents d fr' else fr'
    else fr
  end.

(** numpy.max of the frontier values below 255, plus one (track.py:5286). *)
Definition frontier_parents (fr : list nat) : nat := S (list_max (filter (fun v => Nat.ltb v unvisited) fr)).

(** The nearest centroid for what is left (track.py:5327-5344): argmin over all
    rows of the array. *)
Definition nearest_row (dist : nat -> nat -> Q) (k : nat) : nat :=
  nearest (map (dist k) (seq 0 max_parents)).
Definition partition_nn_mesh (nbs : list (list Z)) (dist : nat -> nat -> Q) (max_d : nat)
    (child : list bool) (fr : list nat) : list nat :=
  let out := spread nbs child (frontier_parents fr) max_d fr in
  map (fun k => if Nat.eqb (nth k out unvisited) unvisited then nearest_row dist k else nth k out unvisited)
      (points child).

(** partition_centroid_unstructured: one label per cell of the mesh, 0 outside
    the child (track.py:5397-5417).  Reading past the end of child_ids is
    unchecked in compiled code; the model gives [junk k]. *)
Definition partition_centroid_mesh (dist : nat -> nat -> Q) (junk : nat -> Z) (child : list bool) (child_ids : list Z)
    : list Z :=
  map (fun k => if nth k child false then nth (nearest_row dist k) child_ids (junk k) else 0%Z)
      (seq 0 (length child)).

(** parent_masks_uint (track.py:3958, 3996): the index of the accepted parent
    each cell of the previous step belongs to. *)
Fixpoint index_of (v : Z) (ids : list Z) (i : nat) : option nat :=
  match ids with
  | [] => None
  | x :: r => if Z.eqb v x then Some i else index_of v r (S i)
  end.
Definition parent_frontier (ids : list Z) (prev : list Z) : list nat :=
  map (fun v => match index_of v ids 0 with Some i => i | None => unvisited end) prev.
