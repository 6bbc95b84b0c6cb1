(** Vocabulary for whole preprocessing runs. *)
From Verif Require Import Base Detect DetrendSpec.
Open Scope nat_scope.

(** The value at a time step and cell, if it is finite. *)
Definition finite_value (da : list (list value)) (t c : nat) : option Q :=
  match nth c (nth t da []) NaN with Finite q => Some q | _ => None end.
(** The same finite cells, the second array being larger by [signal]. *)
Definition offset_by (signal : nat -> nat -> Q) (n : nat) (da da' : list (list value)) : Prop :=
  length da' = length da /\
  forall t c, t < length da -> c < n ->
    match finite_value da t c, finite_value da' t c with
    | Some a, Some b => (b == a + signal t c)%Q
    | None, None => True
    | _, _ => False
    end.
(** Cell (y', x') lies in the square window of width [w] around (y, x), columns
    wrapping around. *)
Definition near (ny nx w y x y' x' : nat) : Prop :=
  y' < ny /\ x' < nx /\ y <= y' + w / 2 /\ y' <= y + w / 2 /\
  exists k : Z, (- Z.of_nat (w / 2) <= k <= Z.of_nat (w / 2))%Z /\ Z.of_nat x' = ((Z.of_nat x + k) mod Z.of_nat nx)%Z.
(** A trend and oscillations: a + sum b_i (y - m)^o_i + sum g_j h_j(y). *)
Fixpoint total (l : list Q) : Q := match l with [] => 0%Q | x :: r => (x + total r)%Q end.
Definition trend (a : Q) (b : nat -> Q) (m : Q) (orders : list nat) (y : Q) : Q :=
  (a + total (map (fun i => b i * power (y - m) (nth i orders 0%nat)) (seq 0 (length orders))))%Q.
Definition oscillation (g : nat -> Q) (harmonics : list (Q -> Q)) (y : Q) : Q :=
  total (map (fun j => g j * nth j harmonics (fun _ => 0) y)%Q (seq 0 (length harmonics))).
