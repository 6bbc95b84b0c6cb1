(** Vocabulary for detrending: pseudo-inverses and inner products. *)
From Verif Require Import Base.
Open Scope nat_scope.

Fixpoint summation (n : nat) (f : nat -> Q) : Q := match n with O => 0%Q | S k => (summation k f + f k)%Q end.
(** x to the n-th. *)
Fixpoint power (x : Q) (n : nat) : Q := match n with O => 1%Q | S k => (x * power x k)%Q end.
Definition product (inner : nat) (A B : nat -> nat -> Q) : nat -> nat -> Q := fun i j => summation inner (fun r => A i r * B r j)%Q.
(** The Moore-Penrose conditions for a matrix A of k rows and n columns and its
    pseudo-inverse P of n rows and k columns. *)
Definition pseudo_inverse (k n : nat) (A P : nat -> nat -> Q) : Prop :=
  (forall i t, i < k -> t < n -> (product n A (product k P A) i t == A i t)%Q) /\
  (forall s j, s < n -> j < k -> (product k P (product n A P) s j == P s j)%Q) /\
  (forall i j, i < k -> j < k -> (product n A P i j == product n A P j i)%Q) /\
  (forall s t, s < n -> t < n -> (product k P A s t == product k P A t s)%Q).
(** Number of days of the Gregorian calendar before a year, up to a constant. *)
Definition days_before (y : Z) : Z := (365 * (y - 1) + (y - 1) / 4 - (y - 1) / 100 + (y - 1) / 400)%Z.
(** Population variance of a list of values. *)
Definition variance_of (l : list Q) (v : Q) : Prop :=
  l <> [] /\
  exists m, (m * inject_Z (Z.of_nat (length l)) == fold_right Qplus 0 l)%Q /\
            (v * inject_Z (Z.of_nat (length l)) == fold_right Qplus 0 (map (fun x => (x - m) * (x - m)) l))%Q.
