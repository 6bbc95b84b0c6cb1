(** Vocabulary for the partitioning properties, independent of the model. *)
From Verif Require Import Base.
Open Scope nat_scope.

Definition toQ (n : nat) : Q := inject_Z (Z.of_nat n).

(** Squared distance to the [j]-th longitude image of the second point. *)
Definition image2 (nx : nat) (y1 x1 y2 x2 : Q) (j : Z) : Q :=
  ((y1 - y2) * (y1 - y2) + (x1 - x2 + inject_Z j * toQ nx) * (x1 - x2 + inject_Z j * toQ nx))%Q.

(** [d] is the squared distance between two points: plain without wrapping, the
    smallest over all longitude images with wrapping. *)
Definition is_dist2 (wrap : bool) (nx : nat) (y1 x1 y2 x2 d : Q) : Prop :=
  if wrap then (exists j, (d == image2 nx y1 x1 y2 x2 j)%Q) /\ (forall j, (d <= image2 nx y1 x1 y2 x2 j)%Q)
  else (d == image2 nx y1 x1 y2 x2 0)%Q.

(** Squared distance between two cells of a grid with [nx] columns, numbered row
    by row. *)
Definition apart (wrap : bool) (nx : nat) (k p : nat) (d : Q) : Prop :=
  is_dist2 wrap nx (toQ (k / nx)) (toQ (k mod nx)) (toQ (p / nx)) (toQ (p mod nx)) d.

(** Cell [p] belongs to parent number [i]. *)
Definition parent_cell (parents : list (list bool)) (i p : nat) : Prop :=
  i < length parents /\ nth p (nth i parents []) false = true.
