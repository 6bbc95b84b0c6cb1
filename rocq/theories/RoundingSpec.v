(** Vocabulary for C164, C165. *)
From Verif Require Import Base Filter Overlap Rounding.
Open Scope nat_scope.

(** Every ID occurs at one time only. *)
Definition one_time (fields : list (list Z)) : Prop :=
  forall x j k, (0 < x)%Z -> In x (nth j fields []) -> In x (nth k fields []) -> j = k.

(** The table holds the float32 area of every object. *)
Definition table32 (w : list Q) (fields : list (list Z)) (ps : props) : Prop :=
  forall t x, (0 < x)%Z -> In x (nth t fields []) -> exists p, lookup x ps = Some p /\ (p_area p == area32 w x (nth t fields []))%Q.

