(** What the centroid properties talk about, independent of the model. *)
From Verif Require Import Base Partition.
Open Scope nat_scope.

(** A shape on the cylinder: rows and columns, the columns not reduced. *)
Definition shape := list (nat * Z).
Definition shape_cell (nx : nat) (p : nat * Z) : nat := fst p * nx + Z.to_nat (snd p mod Z.of_nat nx).
(** The mask shows the shape: its cells are those of the shape, each once. *)
Definition drawn (ny nx : nat) (mask : list bool) (s : shape) : Prop :=
  length mask = ny * nx /\ NoDup (map (shape_cell nx) s) /\
  (forall p, In p s -> fst p < ny) /\
  (forall k, nth k mask false = true <-> In k (map (shape_cell nx) s)).
Definition moved (d : Z) (s : shape) : shape := map (fun p => (fst p, (snd p + d)%Z)) s.

(** Weighted sums over a shape; its centre of mass is (rows, columns) with
    total * centre = sum. *)
Definition total {A} (f : A -> Q) (l : list A) : Q := fold_right (fun x acc => (f x + acc)%Q) 0%Q l.
Definition centre_rows (w : nat * Z -> Q) (s : shape) (c : Q) : Prop :=
  (c * total w s == total (fun p => w p * inject_Z (Z.of_nat (fst p))) s)%Q.
Definition centre_cols (w : nat * Z -> Q) (s : shape) (c : Q) : Prop :=
  (c * total w s == total (fun p => w p * inject_Z (snd p)) s)%Q.

(** Equal modulo the width of the grid. *)
Definition same_col (nx : nat) (a b : Q) : Prop := exists k : Z, (a == b + inject_Z (k * Z.of_nat nx))%Q.

(** All columns within half a grid width of the seam. *)
Definition around_seam (nx : nat) (s : shape) : Prop :=
  forall p, In p s -> (2 * snd p <= Z.of_nat nx /\ - Z.of_nat nx < 2 * snd p)%Z.
(** All columns inside the grid. *)
Definition inside (nx : nat) (s : shape) : Prop :=
  forall p, In p s -> (0 <= snd p < Z.of_nat nx)%Z.
(** Some cell among the first, last, 100 columns of the grid. *)
Definition near_both (nx : nat) (s : shape) : Prop :=
  (exists p, In p s /\ (snd p mod Z.of_nat nx < 100)%Z) /\
  (exists p, In p s /\ (Z.of_nat nx - 100 <= snd p mod Z.of_nat nx)%Z).
(** A mask showing the shape. *)
Definition draw (ny nx : nat) (s : shape) : list bool :=
  map (fun k => existsb (Nat.eqb k) (map (shape_cell nx) s)) (seq 0 (ny * nx)).
(** Touching both longitude edges; away from both. *)
Definition touches_edges (nx : nat) (s : shape) : Prop :=
  (exists p, In p s /\ (snd p mod Z.of_nat nx = 0)%Z) /\
  (exists p, In p s /\ (snd p mod Z.of_nat nx = Z.of_nat nx - 1)%Z).
Definition off_edges (nx : nat) (s : shape) : Prop :=
  forall p, In p s -> (0 < snd p < Z.of_nat nx - 1)%Z.
(** Evenly spaced coordinate values. *)
Definition evenly (n : nat) (l0 dl : Q) (vals : list Q) : Prop :=
  length vals = n /\ forall j, j < n -> (nth j vals 0 == l0 + dl * natQ j)%Q.
(** Cell areas that are positive and depend on the latitude only. *)
Definition row_areas (ny nx : nat) (ca : list Q) (wt : nat -> Q) : Prop :=
  (forall k, k < ny * nx -> (nth k ca 0 == wt (Nat.div k nx))%Q) /\ (forall y, y < ny -> (0 < wt y)%Q).
