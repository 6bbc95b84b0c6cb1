(** Specification of object identification. *)
From Verif Require Import Base Label Morph MorphSpec.
Open Scope nat_scope.

Definition in_range (nt ny nx : nat) (c : cell) : Prop :=
  match c with (t, y, x) => t < nt /\ y < ny /\ x < nx end.

Definition dist1 (a b : nat) : Prop := a <= b + 1 /\ b <= a + 1.
(** Columns next to each other or equal; first and last column too when periodic. *)
Definition col_next (wrap : bool) (nx x x' : nat) : Prop :=
  dist1 x x' \/ (wrap = true /\ (x + 1 = x' + nx \/ x' + 1 = x + nx)).
Definition touching (tconn wrap : bool) (nx : nat) (c c' : cell) : Prop :=
  match c, c' with
  | (t, y, x), (t', y', x') =>
      (if tconn then dist1 t t' else t = t') /\ dist1 y y' /\ col_next wrap nx x x'
  end.

(** Two extreme cells are joined by a chain of touching extreme cells. *)
Inductive chain (tconn wrap : bool) (nt ny nx : nat) (on : cell -> Prop) : cell -> cell -> Prop :=
| chain_here c : chain tconn wrap nt ny nx on c c
| chain_step c d e : in_range nt ny nx d -> on d -> touching tconn wrap nx c d ->
    chain tconn wrap nt ny nx on d e -> chain tconn wrap nt ny nx on c e.

Definition extreme (ny nx : nat) (data : list bool) (c : cell) : Prop :=
  nth (flat ny nx c) data false = true.
Definition label_of (ny nx : nat) (lab : list Z) (c : cell) : Z := nth (flat ny nx c) lab 0%Z.

(** Mesh: a chain of extreme ocean cells consecutive in the neighbour table. *)
Inductive mesh_chain (m : mesh) (on : nat -> Prop) : nat -> nat -> Prop :=
| mchain_here i : mesh_chain m on i i
| mchain_step i j k : on j -> (adj m i j \/ adj m j i) -> j < length m -> mesh_chain m on j k -> mesh_chain m on i k.

(** Value at time t and position i. *)
Definition at2 (fields : list (list Z)) (t i : nat) : Z := nth i (nth t fields []) 0%Z.
