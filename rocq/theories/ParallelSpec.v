(** Vocabulary for the parallel merging. *)
From Verif Require Import Base Merge OverlapSpec ClusterSpec.
Open Scope nat_scope.

(** Value of cell [k] at time [t]. *)
Definition value (fields : list (list Z)) (t k : nat) : Z := nth k (nth t fields []) 0%Z.
Definition in_shape (fields : list (list Z)) (t k : nat) : Prop := t < length fields /\ k < length (nth t fields []).
Definition same_shape (F G : list (list Z)) : Prop :=
  length G = length F /\ forall t, t < length F -> length (nth t G []) = length (nth t F []).
(** IDs are below [c]. *)
Definition ids_below (c : Z) (F : list (list Z)) : Prop := forall f x, In f F -> In x f -> (0 <= x < c)%Z.

(** [G] divides the objects of [F]: cells keep their ID or get one from [c] on,
    the same cells carry objects, cells of one object of [G] were in one object
    of [F]. *)
Definition divides (c c' : Z) (F G : list (list Z)) : Prop :=
  same_shape F G /\
  (forall t k, in_shape F t k -> value G t k = value F t k \/ (c <= value G t k < c')%Z) /\
  (forall t k, in_shape F t k -> (0 < value G t k)%Z <-> (0 < value F t k)%Z) /\
  (forall t j k, in_shape F t j -> in_shape F t k -> value G t j = value G t k -> value F t j = value F t k).

(** A recorded merge with new IDs from [c] to [c'-1]. *)
Definition sound_merge (nt : nat) (c c' : Z) (e : event) : Prop :=
  1 <= e_time e < nt /\
  2 <= length (e_parents e) <= 10 /\
  length (e_children e) = length (e_parents e) /\ length (e_areas e) = length (e_parents e) /\
  NoDup (e_parents e) /\ NoDup (e_children e) /\
  (forall p, In p (e_parents e) -> (0 < p < c')%Z) /\
  (forall x, In x (e_children e) -> (0 < x < c')%Z) /\
  (forall x, In x (tl (e_children e)) -> (c <= x)%Z).

(** [g] divides the objects of one step [f]. *)
Definition finer (f g : list Z) : Prop :=
  length g = length f /\
  (forall k, k < length f -> (0 < nth k g 0)%Z <-> (0 < nth k f 0)%Z) /\
  (forall j k, j < length f -> k < length f -> nth j g 0%Z = nth k g 0%Z -> nth j f 0%Z = nth k f 0%Z).

(** A recorded merge, between a step [before] and the next step [now] as they stood:
    its parents are all objects that overlap the first child enough, each with the area
    it shares with it. *)
Definition recorded_overlaps (w : list Q) (thr : Q) (before now : list Z) (e : event) : Prop :=
  exists c rest, e_children e = c :: rest /\
    (forall p, In p (e_parents e) <-> overlap_enough w thr before now p c) /\
    Forall2 (fun p a => (a == shared_area w before now p c)%Q) (e_parents e) (e_areas e).
