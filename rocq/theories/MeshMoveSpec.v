(** Vocabulary for the same data on a mesh with other cell numbers. *)
From Verif Require Import Base Morph MorphSpec Filter Overlap Merge Cluster ClusterSpec MeshPart Parallel Run MeshRun.
Open Scope nat_scope.

(** [sig] gives every one of [n] cells another number, no two the same. *)
Definition renumbers (n : nat) (sig : nat -> nat) : Prop :=
  (forall k, k < n -> sig k < n) /\ (forall j k, j < n -> k < n -> sig j = sig k -> j = k).
(** The values of one step, cell by cell. *)
Definition moved_step {A} (d : A) (n : nat) (sig : nat -> nat) (v v' : list A) : Prop :=
  length v = n /\ length v' = n /\ forall k, k < n -> nth (sig k) v' d = nth k v d.
(** The values of all steps. *)
Definition moved_steps {A} (d : A) (n : nat) (sig : nat -> nat) (s s' : list (list A)) : Prop :=
  length s' = length s /\ forall t, t < length s -> moved_step d n sig (nth t s []) (nth t s' []).
(** The same mesh: cells have the neighbours they had, in any column and any number of
    times, and keep mask and area; same radius, gap and size rule. *)
Definition same_mesh (sig : nat -> nat) (h h' : mesh_setup) : Prop :=
  let n := length (h_nbs h) in
  length (h_nbs h') = n /\ renumbers n sig /\
  (forall i j, i < n -> j < n -> (adj (h_nbs h') (sig i) (sig j) <-> adj (h_nbs h) i j)) /\
  moved_step false n sig (h_mask h) (h_mask h') /\ moved_step 0%Q n sig (h_area h) (h_area h') /\
  h_R h' = h_R h /\ h_T h' = h_T h /\ h_rule h' = h_rule h.

(** What tracking on a mesh depends on besides the mesh: centroids, overlap threshold,
    the tables and search of the partition, the order Python runs through a set, the
    length of a block of steps and the iteration limit. *)
Record mesh_tracking := mkMeshTracking {
  y_cent : list bool -> Q * Q; y_thr : Q; y_nbs : list (list Z); y_dist : nat -> nat -> Q; y_reach : list Z -> nat;
  y_order : list Z -> list Z; y_block : nat; y_limit : nat }.
(** A run without checkpoints. *)
Definition fresh_mesh_run (h : mesh_setup) (y : mesh_tracking) (data : field) : result run_err (list (list Z) * Z * option merges * stats) :=
  snd (run (clean_mesh h) (area_mesh h) _
         (track_on_mesh h (y_cent y) (y_thr y) (part_nn_mesh (y_nbs y) (y_dist y) (y_reach y)) (y_order y) (y_block y) (y_limit y))
         [] [] None (mkTracker (Some data) None true) (mkFiles None NoNpz)).
(** The same cells are in events, and in the same event as before. *)
Definition moved_events (n : nat) (sig : nat -> nat) (F F' : list (list Z)) : Prop :=
  length F' = length F /\
  (forall t k, t < length F -> k < n -> (id_at F' t (sig k) = 0%Z <-> id_at F t k = 0%Z)) /\
  (forall t j u k, t < length F -> u < length F -> j < n -> k < n -> id_at F t j <> 0%Z -> id_at F u k <> 0%Z ->
     (id_at F' t (sig j) = id_at F' u (sig k) <-> id_at F t j = id_at F u k)).
Definition same_stats (a b : stats) : Prop :=
  s_total a = s_total b /\ s_before a = s_before b /\ s_after a = s_after b /\ s_threshold a = s_threshold b /\ s_accepted a = s_accepted b /\ (s_processed a == s_processed b)%Q.
