(** Vocabulary for the event properties, independent of the model's helpers. *)
From Verif Require Import Base OverlapSpec.
Open Scope nat_scope.

(** Value at time t and cell k. *)
Definition id_at (fields : list (list Z)) (t k : nat) : Z := nth k (nth t fields []) 0%Z.

(** Two IDs joined by a chain of pairs, each used in either direction. *)
Inductive chained (R : Z -> Z -> Prop) : Z -> Z -> Prop :=
| chained_refl x : chained R x x
| chained_fwd x y z : R x y -> chained R y z -> chained R x z
| chained_bwd x y z : R y x -> chained R y z -> chained R x z.

(** Object [p] of field [f] and object [c] of the next field [g] share at least
    the fraction [thr] of the area of the smaller one. *)
Definition overlap_enough (w : list Q) (thr : Q) (f g : list Z) (p c : Z) : Prop :=
  (0 < p)%Z /\ (0 < c)%Z /\ meets f g p c /\
  ((object_area w f p <= object_area w g c /\ thr * object_area w f p <= shared_area w f g p c) \/
   (object_area w g c <= object_area w f p /\ thr * object_area w g c <= shared_area w f g p c))%Q.

(** The same between some two consecutive times of a series. *)
Definition consecutive_overlap (w : list Q) (thr : Q) (fields : list (list Z)) (p c : Z) : Prop :=
  exists t, S t < length fields /\ overlap_enough w thr (nth t fields []) (nth (S t) fields []) p c.

(** Event [k] has a cell at time [t]. *)
Definition present_at (fields : list (list Z)) (t : nat) (k : Z) : Prop := In k (nth t fields []).

(** What clustering is given: non-negative IDs, pairs of IDs that occur, merges
    whose parents occur. *)
Definition cluster_input (fields : list (list Z)) (pairs : list (Z * Z)) (parents : list (list Z)) : Prop :=
  (forall f x, In f fields -> In x f -> (0 <= x)%Z) /\
  (forall a b, In (a, b) pairs -> (0 < a)%Z /\ (0 < b)%Z /\ In a (concat fields) /\ In b (concat fields)) /\
  (forall row p, In row parents -> In p row -> (0 < p)%Z -> In p (concat fields)).

(** Event [k] contains a parent of a merge recorded for time [t]: merges are
    given by their times and parent IDs (object IDs), [objs] is the object field
    and [evs] the event field. *)
Definition merging_event (times : list nat) (parents : list (list Z)) (objs evs : list (list Z)) (t : nat) (k : Z) : Prop :=
  exists j p, j < length parents /\ nth j times 0 = t /\ In p (nth j parents []) /\ (0 < p)%Z /\
    exists u c, u < length objs /\ c < length (nth u objs []) /\ id_at objs u c = p /\ id_at evs u c = k.
(** Events [k] and [l] contain parents of one and the same merge recorded for [t]. *)
Definition merge_siblings (times : list nat) (parents : list (list Z)) (objs evs : list (list Z)) (t : nat) (k l : Z) : Prop :=
  exists j p q, j < length parents /\ nth j times 0 = t /\ In p (nth j parents []) /\ In q (nth j parents []) /\
    (0 < p)%Z /\ (0 < q)%Z /\
    (exists u c, u < length objs /\ c < length (nth u objs []) /\ id_at objs u c = p /\ id_at evs u c = k) /\
    (exists u c, u < length objs /\ c < length (nth u objs []) /\ id_at objs u c = q /\ id_at evs u c = l).
