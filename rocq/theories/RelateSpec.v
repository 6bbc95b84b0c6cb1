(** Two runs on related data: turned longitudes, reversed axes, added steps. *)
From Verif Require Import Base Label LabelSpec Filter FilterSpec Overlap Merge Partition Cluster Run.
Open Scope nat_scope.

(** run() of a new tracker on [data], with or without merging. *)
Record tracking := mkTracking {
  k_merging : bool; k_nn : bool; k_centroid : list bool -> Q * Q; k_overlap : Q; k_areas : list Q; k_chunks : list nat }.
Definition fresh_run (g : grid) (k : tracking) (data : field) : result run_err (list (list Z) * Z * option merges * stats) :=
  snd (run (clean_grid g) area_grid _
         (if k_merging k then track_merging g (k_nn k) (k_centroid k) (k_overlap k) (k_areas k) (k_chunks k) else track_simple g)
         [] [] None (mkTracker (Some data) None false) (mkFiles None NoNpz)).

(** The value of a record, and the ID of a result, at a cell. *)
Definition value_at (nx : nat) (data : field) (c : cell) : bool :=
  match c with (t, y, x) => nth (y * nx + x) (nth t data []) false end.
Definition id_of (nx : nat) (F : list (list Z)) (c : cell) : Z :=
  match c with (t, y, x) => nth (y * nx + x) (nth t F []) 0%Z end.

(** Columns moved east by [k], around the globe; steps moved later by [a]. *)
Definition turned (nx k : nat) (c : cell) : cell :=
  match c with (t, y, x) => (t, y, if Nat.ltb (x + k) nx then x + k else x + k - nx) end.
Definition later (a : nat) (c : cell) : cell := match c with (t, y, x) => (t + a, y, x) end.

(** Rows or columns counted from the other end. *)
Definition flipped (by_ bx : bool) (ny nx : nat) (c : cell) : cell :=
  match c with (t, y, x) => (t, if by_ then ny - 1 - y else y, if bx then nx - 1 - x else x) end.
(** Step [t] of a record of [nt] steps counted from the end. *)
Definition backwards (nt : nat) (c : cell) : cell := match c with (t, y, x) => (nt - 1 - t, y, x) end.
(** Data and mask moved by [sig]. *)
Definition moved_data (g : grid) (sig : cell -> cell) (data data' : field) : Prop :=
  length data' = length data /\
  forall c, in_range (g_nt g) (g_ny g) (g_nx g) c -> value_at (g_nx g) data' (sig c) = value_at (g_nx g) data c.
Definition moved_mask (g : grid) (sig : cell -> cell) (mask' : list bool) : Prop :=
  forall y x, y < g_ny g -> x < g_nx g -> value_at (g_nx g) [mask'] (sig (0, y, x)) = nth (y * g_nx g + x) (g_mask g) false.

(** The same tracker on another mask or record length. *)
Definition with_mask (g : grid) (mask : list bool) : grid :=
  mkGrid (g_regional g) (g_nt g) (g_ny g) (g_nx g) mask (g_R g) (g_T g) (g_rule g).
Definition with_steps (g : grid) (nt : nat) : grid :=
  mkGrid (g_regional g) nt (g_ny g) (g_nx g) (g_mask g) (g_R g) (g_T g) (g_rule g).
Definition quiet (g : grid) (n : nat) : field := repeat (repeat false (g_ny g * g_nx g)) n.

(** The same statistics; the preprocessed fraction refers to the input, so it is the
    same when the input has the same number of extreme cells. *)
Definition same_figures (data data' : field) (st st' : stats) : Prop :=
  s_total st' = s_total st /\ s_before st' = s_before st /\ s_after st' = s_after st /\ s_threshold st' = s_threshold st /\ s_accepted st' = s_accepted st /\
  (count (fun b => b) (concat data') = count (fun b => b) (concat data) -> s_processed st' = s_processed st).

(** The event cells of [F'] are those of [F] moved by [sig] and nothing else; cells
    share an ID in one exactly when they do in the other. *)
Definition moved_events (nt nt' ny nx : nat) (sig : cell -> cell) (F F' : list (list Z)) : Prop :=
  (forall c, in_range nt ny nx c -> (id_of nx F' (sig c) <> 0%Z <-> id_of nx F c <> 0%Z)) /\
  (forall d, in_range nt' ny nx d -> id_of nx F' d <> 0%Z -> exists c, in_range nt ny nx c /\ sig c = d).
Definition same_grouping (nt ny nx : nat) (sig : cell -> cell) (F F' : list (list Z)) : Prop :=
  forall c d, in_range nt ny nx c -> in_range nt ny nx d -> id_of nx F c <> 0%Z -> id_of nx F d <> 0%Z ->
    (id_of nx F' (sig c) = id_of nx F' (sig d) <-> id_of nx F c = id_of nx F d).

(** The two dropped objects, those holding the earliest extreme cells, are one object
    moved by [sig], or both are below the threshold and would not be kept anyway. *)
Definition too_small (g : grid) (s : field) (thr : Q) (e : cell) : Prop :=
  forall l, object_cells (g_regional g) (g_nt g) (g_ny g) (g_nx g) (concat s) e l -> (nat_Q (length l) < thr)%Q.
Definition drops_alike (g g' : grid) (sig : cell -> cell) (s s' : field) (thr : Q) : Prop :=
  forall e e', first_extreme (g_nt g) (g_ny g) (g_nx g) (concat s) e -> first_extreme (g_nt g') (g_ny g') (g_nx g') (concat s') e' ->
    joined (g_regional g') (g_nt g') (g_ny g') (g_nx g') (concat s') (sig e) e' \/ (too_small g s thr e /\ too_small g' s' thr e').
