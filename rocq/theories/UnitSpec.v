(** Vocabulary for runs with cell areas in another unit. *)
From Verif Require Import Base Morph Filter Overlap Merge Partition Cluster MeshPart Parallel Run MeshRun RelateSpec.
Open Scope nat_scope.

(** [b] is [a] in a unit [c] times smaller. *)
Definition in_unit (c a b : Q) : Prop := (b == c * a)%Q.
Definition areas_in_unit (c : Q) (w w' : list Q) : Prop := Forall2 (in_unit c) w w'.
(** The merges dataset: everything the same, the areas in the other unit, the padding as it is. *)
Definition merges_in_unit (c : Q) (a b : merges) : Prop :=
  m_parents b = m_parents a /\ m_children b = m_children a /\ m_time b = m_time a /\
  m_n_parents b = m_n_parents a /\ m_n_children b = m_n_children a /\
  Forall2 (Forall2 (fun x y => in_unit c x y \/ (x = (-1)%Q /\ y = (-1)%Q))) (m_areas a) (m_areas b).
(** The events dataset: everything the same but the areas; NaN where it was. *)
Definition area_in_unit (c : Q) (x y : option Q) : Prop :=
  match x, y with Some a, Some b => in_unit c a b | None, None => True | _, _ => False end.
Definition events_in_unit (c : Q) (a b : events) : Prop :=
  v_field b = v_field a /\ v_count b = v_count a /\ v_global b = v_global a /\ v_presence b = v_presence a /\
  v_start b = v_start a /\ v_end b = v_end a /\ v_ledger b = v_ledger a /\
  Forall2 (Forall2 (area_in_unit c)) (v_area a) (v_area b).
(** Both fail, and in the same way, or both succeed with related results. *)
Definition both {E A B} (R : A -> B -> Prop) (r : result E A) (r' : result E B) : Prop :=
  match r, r' with Ok a, Ok b => R a b | Err e, Err e' => e = e' | _, _ => False end.

Definition with_areas (h : mesh_setup) (w : list Q) : mesh_setup :=
  mkMesh (h_nbs h) (h_mask h) (h_R h) (h_T h) (h_rule h) w.
Definition with_grid_areas (k : tracking) (w : list Q) : tracking :=
  mkTracking (k_merging k) (k_nn k) (k_centroid k) (k_overlap k) w (k_chunks k).
