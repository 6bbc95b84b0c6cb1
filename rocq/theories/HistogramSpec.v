(** Vocabulary for thresholds. *)
From Verif Require Import Base.
Open Scope nat_scope.

(** [x] is the r-th smallest of the values [l] (counting from 1). *)
Definition order_statistic (l : list Q) (r : nat) (x : Q) : Prop :=
  In x l /\ count (fun v => negb (Qle_bool x v)) l < r /\ r <= count (fun v => Qle_bool v x) l.

(** Rows within [h] of row [y] inside the grid, columns within [h] of column [x]
    around the globe, days within [k] of day [d] (1..366) around the year. *)
Definition rows_near (ny y h : nat) : list nat := filter (fun y' => Nat.leb y (y' + h) && Nat.leb y' (y + h)) (seq 0 ny).
Definition around (n c h : nat) : list nat := map (fun j => Z.to_nat ((Z.of_nat c - Z.of_nat h + Z.of_nat j) mod Z.of_nat n)) (seq 0 (2 * h + 1)).
Definition days_near (d k : nat) : list nat := map S (around 366 (d - 1) k).

(** The available values of a cell on a day. *)
Definition values_on (doys : list nat) (da : nat -> nat -> option Q) (cell day : nat) : list Q :=
  flat_map (fun t => if Nat.eqb (nth t doys 0) day then match da t cell with Some v => [v] | None => [] end else []) (seq 0 (length doys)).
(** The sample a day-of-year threshold is meant to be the percentile of. *)
Definition pooled_sample (ny nx : nat) (doys : list nat) (da : nat -> nat -> option Q) (h : option nat) (k y x d : nat) : list Q :=
  let ys := match h with Some h => rows_near ny y h | None => [y] end in
  let xs := match h with Some h => around nx x h | None => [x] end in
  flat_map (fun y' => flat_map (fun x' => flat_map (values_on doys da (y' * nx + x')) (days_near d k)) xs) ys.

(** Position [j] lies within [h] of position [c] on a circle of [n] positions. *)
Definition circular (n c h j : nat) : bool := Nat.leb ((j + n - c) mod n) h || Nat.leb ((c + n - j) mod n) h.
(** Thresholds compare: missing together, or ordered. *)
Definition threshold_le (a b : option Q) : Prop :=
  match a, b with Some a, Some b => (a <= b)%Q | None, None => True | _, _ => False end.
