(** Vocabulary for tracking a cut-out instead of the whole grid. *)
From Verif Require Import Base Label LabelSpec Filter FilterSpec Overlap Merge Partition Cluster Run RelateSpec.
Open Scope nat_scope.

(** Row and column of the cut-out in the whole grid. *)
Definition placed (a b : nat) (c : cell) : cell := match c with (t, y, x) => (t, y + a, x + b) end.

(** [g], [data] are the rows a, a+1, ... and columns b, b+1, ... of [g'], [data'], tracked
    in regional mode with the same settings; no cell outside is extreme. *)
Definition cut_out (a b : nat) (g g' : grid) (data data' : field) : Prop :=
  g_regional g = true /\ g_nt g' = g_nt g /\ a + g_ny g <= g_ny g' /\ b + g_nx g <= g_nx g' /\
  g_R g' = g_R g /\ g_T g' = g_T g /\ g_rule g' = g_rule g /\
  (forall y x, y < g_ny g -> x < g_nx g -> nth ((y + a) * g_nx g' + (x + b)) (g_mask g') false = nth (y * g_nx g + x) (g_mask g) false) /\
  length data = g_nt g /\ length data' = g_nt g /\
  (forall c, in_range (g_nt g) (g_ny g) (g_nx g) c -> value_at (g_nx g') data' (placed a b c) = value_at (g_nx g) data c) /\
  (forall d, in_range (g_nt g) (g_ny g') (g_nx g') d -> value_at (g_nx g') data' d = true ->
     exists c, in_range (g_nt g) (g_ny g) (g_nx g) c /\ placed a b c = d).

(** No extreme cell within [m] cells of an edge. *)
Definition room (m : nat) (g : grid) (data : field) : Prop :=
  forall t y x, in_range (g_nt g) (g_ny g) (g_nx g) (t, y, x) -> value_at (g_nx g) data (t, y, x) = true ->
    m <= y /\ y + m < g_ny g /\ m <= x /\ x + m < g_nx g.

(** The same cells are in events. *)
Definition cut_events (a b : nat) (g g' : grid) (F F' : list (list Z)) : Prop :=
  (forall c, in_range (g_nt g) (g_ny g) (g_nx g) c -> (id_of (g_nx g') F' (placed a b c) <> 0%Z <-> id_of (g_nx g) F c <> 0%Z)) /\
  (forall d, in_range (g_nt g) (g_ny g') (g_nx g') d -> id_of (g_nx g') F' d <> 0%Z -> exists c, in_range (g_nt g) (g_ny g) (g_nx g) c /\ placed a b c = d).
(** The same cells are in one event. *)
Definition cut_grouping (a b : nat) (g g' : grid) (F F' : list (list Z)) : Prop :=
  forall c d, in_range (g_nt g) (g_ny g) (g_nx g) c -> in_range (g_nt g) (g_ny g) (g_nx g) d ->
    id_of (g_nx g) F c <> 0%Z -> id_of (g_nx g) F d <> 0%Z ->
    (id_of (g_nx g') F' (placed a b c) = id_of (g_nx g') F' (placed a b d) <-> id_of (g_nx g) F c = id_of (g_nx g) F d).
