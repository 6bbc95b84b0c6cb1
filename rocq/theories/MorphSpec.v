(** Specification vocabulary for the morphological steps. *)
From Verif Require Import Base Morph.
Open Scope Z_scope.

Definition img_le (f g : img) : Prop := forall y x, f y x = true -> g y x = true.
(** Cells of an ny x nx grid. *)
Definition in_grid (ny nx y x : Z) : Prop := 0 <= y < ny /\ 0 <= x < nx.

(** Cyclic shift by [s] columns on a grid of width [nx]. *)
Definition shift_lon (nx s : Z) (f : img) : img := fun y x => f y ((x - s) mod nx).

(** The morphological filter on an unbounded plane: no array border at all. *)
Definition in_disk (R dy dx : Z) : Prop := dy * dy + dx * dx <= R * R.
Definition grows (R : Z) (S : Z -> Z -> Prop) : Z -> Z -> Prop :=
  fun y x => exists dy dx, in_disk R dy dx /\ S (y + dy) (x + dx).
Definition shrinks (R : Z) (S : Z -> Z -> Prop) : Z -> Z -> Prop :=
  fun y x => forall dy dx, in_disk R dy dx -> S (y + dy) (x + dx).
Definition plane_filter (R : Z) (S : Z -> Z -> Prop) : Z -> Z -> Prop :=
  grows R (shrinks R (shrinks R (grows R S))).

(** The field continued over the whole plane: periodically, or by its edge values. *)
Definition extend (regional : bool) (ny nx : Z) (f : img) : Z -> Z -> Prop :=
  fun y x => if regional then f (clampZ ny y) (clampZ nx x) = true
             else f (y mod ny) (x mod nx) = true.

(** Time series: the value at step t, absent steps are not extreme. *)
Definition ext (l : list bool) (t : Z) : Prop := at_t l t = true.
(** t lies strictly inside a run of at most T non-extreme steps between two extreme steps. *)
Definition in_short_gap (T : Z) (l : list bool) (t : Z) : Prop :=
  exists a b, a < t < b /\ b - a - 1 <= T /\ ext l a /\ ext l b /\
              forall s, a < s < b -> ~ ext l s.

(** Mesh: j is listed as a neighbour of i. *)
Definition adj (m : mesh) (i j : nat) : Prop := In (Z.of_nat j) (row m i).
(** j is at most n neighbour steps away from i. *)
Inductive within (m : mesh) : nat -> nat -> nat -> Prop :=
| within_here n i : within m n i i
| within_step n i j k : adj m i j -> within m n j k -> within m (S n) i k.

Definition mesh_ok (m : mesh) : Prop :=
  forall i j, In j (row m i) -> j < Z.of_nat (length m).
Definition mesh_sym (m : mesh) : Prop :=
  forall i j, adj m i j -> adj m j i.
