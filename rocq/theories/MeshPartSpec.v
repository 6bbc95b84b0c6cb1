(** Hop distances on a mesh. *)
From Verif Require Import Base.
Open Scope nat_scope.

(** [k] is one of the listed neighbours of [j]. *)
Definition adjacent (nbs : list (list Z)) (j k : nat) : Prop :=
  exists nb, In nb nbs /\ nth j nb (-1)%Z = Z.of_nat k.
(** [k] can be reached from a cell of [P] in at most [n] hops over the mesh of
    [m] cells. *)
Inductive within (nbs : list (list Z)) (m : nat) (P : nat -> Prop) : nat -> nat -> Prop :=
| within_here k : k < m -> P k -> within nbs m P 0 k
| within_stay n k : within nbs m P n k -> within nbs m P (S n) k
| within_hop n j k : within nbs m P n j -> adjacent nbs j k -> k < m -> within nbs m P (S n) k.
(** [k] can be walked to in [e] hops from a cell of [P], all inside [C]. *)
Inductive walk_in (nbs : list (list Z)) (C P : nat -> Prop) : nat -> nat -> Prop :=
| walk_start k : C k -> P k -> walk_in nbs C P 0 k
| walk_step e j k : walk_in nbs C P e j -> adjacent nbs j k -> C k -> walk_in nbs C P (S e) k.
