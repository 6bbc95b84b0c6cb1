(** Vocabulary for climatologies. *)
From Verif Require Import Base.
Open Scope nat_scope.

(** The available values at the time steps that satisfy a test, in time order. *)
Definition samples (data : list (option Q)) (P : nat -> bool) : list Q :=
  flat_map (fun i => if P i then match nth i data None with Some q => [q] | None => [] end else []) (seq 0 (length data)).
Fixpoint sum (l : list Q) : Q := match l with [] => 0%Q | x :: r => (x + sum r)%Q end.
(** [r] is the mean of [l], missing when there is nothing to average. *)
Definition mean_of (l : list Q) (r : option Q) : Prop :=
  match r with
  | None => l = []
  | Some m => l <> [] /\ (m * inject_Z (Z.of_nat (length l)) == sum l)%Q
  end.
(** Equal values, or both missing. *)
Definition same (a b : option Q) : Prop :=
  match a, b with Some x, Some y => (x == y)%Q | None, None => True | _, _ => False end.

(** [r] is the mean of the [W] values around step [i], [W / 2] of them before it;
    missing unless all of them are there. *)
Definition smoothed_of (W : nat) (data : list (option Q)) (i : nat) (r : option Q) : Prop :=
  match r with
  | Some m => W / 2 <= i /\ i + W <= length data + W / 2 /\
      exists win, (forall k, k < W -> nth (i - W / 2 + k) data None = Some (nth k win 0%Q)) /\ length win = W /\
        (m * inject_Z (Z.of_nat W) == sum win)%Q
  | None => i < W / 2 \/ length data + W / 2 < i + W \/ exists k, k < W /\ nth (i - W / 2 + k) data None = None
  end.
(** [r] is [a] minus [b], missing when either is. *)
Definition difference_of (a b r : option Q) : Prop :=
  match a, b, r with Some x, Some y, Some z => (z == x - y)%Q | Some _, Some _, None => False | _, _, r => r = None end.
