(** Vocabulary for the merging properties. *)
From Verif Require Import Base Overlap OverlapSpec Merge.
Open Scope nat_scope.

(** [ps] describes the objects of a series of fields: one entry per positive ID
    that occurs, with its area and its centroid at the time it occurs. *)
Definition table_for (w : list Q) (cent : list bool -> Q * Q) (fields : list (list Z)) (ps : props) : Prop :=
  NoDup (map fst ps) /\
  (forall x, In x (map fst ps) <-> (0 < x)%Z /\ exists t, In x (nth t fields [])) /\
  (forall t x p, In x (nth t fields []) -> In (x, p) ps ->
     (p_area p == object_area w (nth t fields []) x)%Q /\
     p_cent p = cent (map (Z.eqb x) (nth t fields []))).

(** Input of the loop: one field per time on [n] cells, IDs non-negative, no ID
    at two times, at least one object. *)
Definition labelled_series (n : nat) (fields : list (list Z)) : Prop :=
  (forall f, In f fields -> length f = n) /\
  (forall f x, In f fields -> In x f -> (0 <= x)%Z) /\
  (forall x j k, (0 < x)%Z -> In x (nth j fields []) -> In x (nth k fields []) -> j = k) /\
  (exists t x, (0 < x)%Z /\ In x (nth t fields [])).

(** IDs invented by the recorded merges: all children but the first. *)
Definition new_ids (evs : list event) : list Z := flat_map (fun e => tl (e_children e)) evs.

(** Areas in a table. *)
Definition areas_in (ps : props) (id : Z) : option Q := option_map p_area (lookup id ps).
