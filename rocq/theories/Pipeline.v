(** From the data to the events on a structured grid, as in the documentation
    (README, examples): preprocess_data, then
    tracker(ds.extreme_events, ds.mask, ...).run().

    The two parts are [DetectRun.preprocess_data] and [Run.run]; the checks of the
    tracker's constructor are those of Config.v and assumed passed. *)
From Coq Require Import String.
From Verif Require Import Base Filter Overlap Merge Cluster Detect Climatology Detrend DetectRun Run.
Open Scope nat_scope.

(** ds.extreme_events and ds.mask (detect.py:663, 797-805). *)
Definition flags (ny nx : nat) (ds : dataset) : field :=
  map (fun t => map (d_extreme ds t) (seq 0 (ny * nx))) (seq 0 (length (d_years ds))).
Definition masks (ny nx : nat) (ds : dataset) : list bool := map (d_mask ds) (seq 0 (ny * nx)).

(** Tracking options: regional_mode, R_fill, T_fill, area filter, allow_merging,
    nn_partitioning, overlap_threshold; the centroids and areas that merging uses and
    the time chunks (track.py:300-348). *)
Record options := mkOptions {
  o_regional : bool; o_R : Z; o_T : Z; o_rule : area_rule; o_merging : bool; o_nn : bool; o_overlap : Q;
  o_centroid : list bool -> Q * Q; o_areas : list Q; o_chunks : list nat }.
Definition tracker_grid (ny nx : nat) (o : options) (ds : dataset) : grid :=
  mkGrid (o_regional o) (length (d_years ds)) ny nx (masks ny nx ds) (o_R o) (o_T o) (o_rule o).
Definition track_events (ny nx : nat) (o : options) (ds : dataset) : result Run.run_err (list (list Z) * Z * option merges * stats) :=
  let g := tracker_grid ny nx o ds in
  let track := if o_merging o then track_merging g (o_nn o) (o_centroid o) (o_overlap o) (o_areas o) (o_chunks o) else track_simple g in
  snd (run (clean_grid g) area_grid _ track [] [] None (mkTracker (Some (flags ny nx ds)) None false) (mkFiles None NoNpz)).
