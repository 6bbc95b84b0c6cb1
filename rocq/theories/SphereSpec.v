(** Points of the unit sphere, for stating what centroids and distances mean. *)
From Coq Require Import Reals ZArith List.
Open Scope R_scope.

(** Degrees as an angle, and the place in space of a (latitude, longitude). *)
Definition angle (d : R) : R := PI * (d / 180).
Definition px (p : R * R) : R := cos (angle (fst p)) * cos (angle (snd p)).
Definition py (p : R * R) : R := cos (angle (fst p)) * sin (angle (snd p)).
Definition pz (p : R * R) : R := sin (angle (fst p)).
(** The same point of the sphere. *)
Definition same_point (p q : R * R) : Prop := px p = px q /\ py p = py q /\ pz p = pz q.
(** Square of the straight-line distance. *)
Definition apart2 (p q : R * R) : R := (px p - px q) ^ 2 + (py p - py q) ^ 2 + (pz p - pz q) ^ 2.
(** The angle between two points seen from the middle of the sphere. *)
Definition inner (p q : R * R) : R := px p * px q + py p * py q + pz p * pz q.
Definition is_arc (p q : R * R) (t : R) : Prop := 0 <= t <= PI /\ cos t = inner p q.
(** Usual ranges of latitude and longitude. *)
Definition usual (p : R * R) : Prop := -90 <= fst p <= 90 /\ -180 < snd p <= 180.
Fixpoint total {A} (f : A -> R) (l : list A) : R :=
  match l with nil => 0 | cons a r => f a + total f r end.

(** The things with a given label, and those with a positive label. *)
Fixpoint carrying {A} (want : Z -> bool) (labels : list Z) (things : list A) : list A :=
  match labels, things with
  | cons z zs, cons a r => if want z then cons a (carrying want zs r) else carrying want zs r
  | _, _ => nil
  end.
