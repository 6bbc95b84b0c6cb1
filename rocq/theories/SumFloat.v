(** Model of the float32 sums behind the areas of events:
    calculate_area_centroid_for_slice sums the areas of the cells of an event with np.sum
    (track.py:3171-3173, 3226-3229), and the cell areas are cast to float32 first
    (track.py:477).  Overlap.v and Cluster.v model these sums with exact numbers.

    Rounding as in Rounding.v: to nearest even, without overflow and subnormal numbers. *)
From Verif Require Import Base Overlap Rounding.
Open Scope nat_scope.

(** A sum in some order: every inner node is one float32 addition (np.sum, track.py:3172, 3228). *)
Inductive order := Leaf (q : Q) | Plus (a b : order).
Fixpoint evaluated (t : order) : Q :=
  match t with Leaf q => q | Plus a b => single (evaluated a + evaluated b) end.

(** NumPy's pairwise_sum (track.py:3172, 3228): one after the other below eight values, ... *)
Definition in_turn (t : order) (l : list Q) : order := fold_left (fun t a => Plus t (Leaf a)) l t.
(** ... eight running sums of every eighth value up to 128 values, ... *)
Fixpoint lanes (k : nat) (r : list order) (l : list Q) : list order * list Q :=
  match k with
  | O => (r, l)
  | S k => lanes k (map (fun p => Plus (fst p) (Leaf (snd p))) (combine r (firstn 8 l))) (skipn 8 l)
  end.
Definition joined_lanes (r : list order) : order :=
  match r with
  | [a; b; c; d; e; f; g; h] => Plus (Plus (Plus a b) (Plus c d)) (Plus (Plus e f) (Plus g h))
  | _ => Leaf 0
  end.
Definition block (l : list Q) : order :=
  let (r, rest) := lanes (length l / 8 - 1) (map Leaf (firstn 8 l)) (skipn 8 l) in
  in_turn (joined_lanes r) rest.
(** ... and above in two halves, the first a multiple of eight long.  [fuel] bounds the
    depth; the length of the list is enough. *)
Fixpoint pairwise (fuel : nat) (l : list Q) : order :=
  let n := length l in
  if Nat.ltb n 8 then in_turn (Leaf 0) l
  else if Nat.leb n 128 then block l
  else match fuel with
       | O => Leaf 0
       | S fuel => let n2 := n / 2 - (n / 2) mod 8 in Plus (pairwise fuel (firstn n2 l)) (pairwise fuel (skipn n2 l))
       end.
(** np.sum of a float32 array starts from zero (track.py:3172, 3228). *)
Definition np_sum32 (l : list Q) : Q := evaluated (Plus (Leaf 0) (pairwise (length l) l)).

(** The area of an event at one step, from the cell areas as given (track.py:477, 3171-3173, 3226-3229). *)
Definition event_area32 (w : list Q) (id : Z) (f : list Z) : Q :=
  np_sum32 (map snd (filter (fun c => Z.eqb id (fst c)) (combine f (map single w)))).
