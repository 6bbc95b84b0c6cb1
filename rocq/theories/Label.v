(** Model of identify_objects.  Source: /repo/marEx/track.py:1912-2048. *)
From Verif Require Import Base Graph Morph.
Open Scope nat_scope.

(** arr[i], track.py:1954. *)
Definition onb (on : list bool) (i : nat) : bool := nth i on false.

(** Indices of the True cells, in order (numpy.where) (track.py:1954). *)
Definition true_indices (on : list bool) : list nat :=
  filter (onb on) (seq 0 (length on)).

(** Label the True nodes of a graph: compact indices, components, labels + 1
    scattered back, 0 elsewhere (track.py:1952-1982; the same meaning is given
    to dask_image.ndmeasure.label). *)
Definition compact_edges (on : list bool) (es : list edge) : list edge :=
  map (fun e => (index_of (fst e) (true_indices on), index_of (snd e) (true_indices on)))
      (filter (fun e => onb on (fst e) && onb on (snd e)) es).
Definition label_on (on : list bool) (es : list edge) : list Z :=
  let ti := true_indices on in
  let comp := components (length ti) (compact_edges on es) in
  map (fun i => if onb on i then (Z.of_nat (nth (index_of i ti) comp 0%nat) + 1)%Z else 0%Z)
      (seq 0 (length on)).
Definition label_count (on : list bool) (es : list edge) : nat :=
  n_components (length (true_indices on)) (compact_edges on es).

(** ** Structured grids (track.py:2007-2046) *)

(** A cell is (t, y, x); arrays are flattened in C order. *)
Notation cell := (nat * nat * nat)%type.
(** track.py:2007-2046. *)
Definition cells (nt ny nx : nat) : list cell :=
  list_prod (list_prod (seq 0 nt) (seq 0 ny)) (seq 0 nx).
(** track.py:2007-2046. *)
Definition flat (ny nx : nat) (c : cell) : nat :=
  match c with (t, y, x) => (t * ny + y) * nx + x end.

(** Offset one coordinate by -1, 0 or +1 inside [0, n) (structure, track.py:2009-2016). *)
Definition steps (n : nat) (k : nat) : list nat :=
  filter (fun j => Nat.ltb j n) (match k with O => [k; S k] | S p => [p; k; S k] end).
(** The same with wrap-around (wrap_axes=(2,), track.py:2026-2030). *)
Definition steps_wrap (n : nat) (k : nat) : list nat :=
  [(k + n - 1) mod n; k mod n; (k + 1) mod n].

(** The 3x3x3 structuring element: all ones when time_connectivity, only the
    middle time plane otherwise; [wrap] models wrap_axes=(2,), used unless
    regional_mode (track.py:2009-2016). *)
Definition neighbour_cells (tconn wrap : bool) (nt ny nx : nat) (c : cell) : list cell :=
  match c with (t, y, x) =>
    list_prod (list_prod (if tconn then steps nt t else [t]) (steps ny y))
              (if wrap then steps_wrap nx x else steps nx x)
  end.

(** track.py:2020-2030. *)
Definition grid_edges (tconn wrap : bool) (nt ny nx : nat) : list edge :=
  flat_map (fun c => map (fun c' => (flat ny nx c, flat ny nx c'))
                         (neighbour_cells tconn wrap nt ny nx c)) (cells nt ny nx).

(** identify_objects on a structured grid: ID field and number of objects (track.py:2007-2046). *)
Definition identify_grid (regional tconn : bool) (nt ny nx : nat) (data : list bool) : list Z * nat :=
  let es := grid_edges tconn (negb regional) nt ny nx in
  (label_on data es, label_count data es).

(** run_tracking without merging on a structured grid: 3-D labels, fillers below
    zero set to 0 (track.py:1391-1399). *)
Definition run_tracking_simple (regional : bool) (nt ny nx : nat) (data : list bool) : list Z * nat :=
  let (lab, n) := identify_grid regional true nt ny nx data in
  (map (fun v => if Z.ltb 0 v then v else 0%Z) lab, n).

(** ** Unstructured meshes (track.py:1946-2005), one time step *)

(** Pairs (neighbours_int[nv, c], c) for entries that are not -1; the test that
    both are keys of [mapping] is the filter in [compact_edges].  A negative
    entry other than -1 is never a key of [mapping] (track.py:1958-1969). *)
Definition mesh_edges (m : mesh) : list edge :=
  flat_map (fun c => map (fun r => (Z.to_nat r, c)) (filter (fun r => Z.leb 0 r) (row m c)))
           (seq 0 (length m)).

(** data_bin.where(mask, other=False), clustering, then where(mask, other=0) (track.py:1984-2004). *)
Definition identify_mesh (m : mesh) (mask data : list bool) : list Z :=
  let on := map (fun p => fst p && snd p) (combine mask data) in
  map (fun p => if (fst p : bool) then snd p else 0%Z) (combine mask (label_on on (mesh_edges m))).
