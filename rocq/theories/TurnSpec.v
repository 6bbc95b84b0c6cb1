(** Vocabulary for turning the globe when holes are filled. *)
From Verif Require Import Base Label LabelSpec Filter FilterSpec Overlap Merge Partition Cluster Run RelateSpec.
Open Scope nat_scope.

(** No extreme cell in the first or last [m] columns. *)
Definition off_seam (m : nat) (g : grid) (data : field) : Prop :=
  forall t y x, in_range (g_nt g) (g_ny g) (g_nx g) (t, y, x) -> value_at (g_nx g) data (t, y, x) = true -> m <= x /\ x + m < g_nx g.
