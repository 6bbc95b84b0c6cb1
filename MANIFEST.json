{
 "claims": [
  {
   "property": "C01",
   "status": "proved",
   "theorems": [
    "C01_area_rule_resolution",
    "C01_built_tracker_rule_in_range"
   ],
   "note": "Proved for every pair of options and numeric value: which filter is chosen, and that a built tracker's rule is in range."
  },
  {
   "property": "C02",
   "status": "partial",
   "theorems": [
    "C02_accepts_iff_all_requirements",
    "C02_first_violation_decides",
    "C02_missing_coordinate_reported_refuted"
   ],
   "note": "Proved: acceptance iff every requirement, and the first violated requirement decides the error. Refuted: a missing lon/lat coordinate is not reported as a data validation error (the code indexes the coordinate first)."
  },
  {
   "property": "C03",
   "status": "proved",
   "theorems": [
    "C03_auto_detection",
    "C03_never_ambiguous",
    "C03_explicit_and_regional",
    "C03_rejections_are_coordinate_errors"
   ],
   "note": "Proved: unit detection on exact rational bounds."
  },
  {
   "property": "C04",
   "status": "partial",
   "theorems": [
    "C04_input_unchanged_refuted",
    "C04_detected_unit_changes_refuted",
    "C04_degrees_input_unchanged_partial"
   ],
   "note": "Refuted: radians input is converted in place. Partial: degrees input is left unchanged."
  },
  {
   "property": "C05",
   "status": "proved",
   "theorems": [
    "C05_degrees_range",
    "C05_degrees_same_point",
    "C05_degrees_unchanged",
    "C05_radians_range",
    "C05_radians_same_point",
    "C05_output_in_input_convention"
   ],
   "note": "Proved: range, same point on the circle, unchanged inside the range."
  },
  {
   "property": "C06",
   "status": "proved",
   "theorems": [
    "C06_masked_out_cells_never_marked",
    "C06_radius_zero_is_identity"
   ],
   "note": "Proved for structured fill; radius 0 is the identity."
  },
  {
   "property": "C07",
   "status": "proved",
   "theorems": [
    "C07_monotone_structured",
    "C07_monotone_mesh"
   ],
   "note": "Proved for structured grids and meshes."
  },
  {
   "property": "C08",
   "status": "partial",
   "theorems": [
    "C08_longitude_seam_invisible_refuted",
    "C08_seam_clips_events_refuted",
    "C08_longitude_seam_invisible_partial",
    "C08_never_more_than_border_free",
    "C08_exact_away_from_edges"
   ],
   "note": "Refuted: padding of 2R is smaller than the 4R influence, so the seam clips events. Partial: equality with the border-free filter where the seam is far, and never more than it."
  },
  {
   "property": "C09",
   "status": "partial",
   "theorems": [
    "C09_poles_not_neighbours_refuted",
    "C09_rows_far_from_poles_are_local_partial"
   ],
   "note": "Refuted: padding in latitude wraps too. Partial: rows far from both poles only depend on rows nearby."
  },
  {
   "property": "C10",
   "status": "proved",
   "theorems": [
    "C10_fills_exactly_short_gaps",
    "C10_record_level",
    "C10_accepted_T_always_runs"
   ],
   "note": "Proved: exactly gaps of up to T_fill between two extremes are filled; accepted T_fill never fails."
  },
  {
   "property": "C11",
   "status": "proved",
   "theorems": [
    "C11_dilation_is_hop_neighbourhood"
   ],
   "note": "Proved: R applications of the neighbour matrix are the R-hop neighbourhood."
  },
  {
   "property": "C12",
   "status": "partial",
   "theorems": [
    "C12_shore_survives",
    "C12_marks_only_near_extremes",
    "C12_land_never_marked_refuted"
   ],
   "note": "Proved: ocean cells survive the shore and marks stay near extremes. Refuted: fill alone may mark land cells (masked again in identify_objects)."
  },
  {
   "property": "C13",
   "status": "proved",
   "theorems": [
    "C13_labels_are_connected_components"
   ],
   "note": "Proved for any grid size, with or without time connectivity and periodicity; labels are exactly 1..N."
  },
  {
   "property": "C14",
   "status": "proved",
   "theorems": [
    "C14_mesh_labels_are_connected_components"
   ],
   "note": "Proved for every neighbour table."
  },
  {
   "property": "C15",
   "status": "proved",
   "theorems": [
    "C15_ids_unique_across_time"
   ],
   "note": "Proved for every series of non-negative label fields."
  },
  {
   "property": "C16",
   "status": "partial",
   "theorems": [
    "C16_keeps_objects_at_or_above_threshold_refuted",
    "C16_keeps_other_objects_partial",
    "C16_fails_only_without_objects",
    "C16_percentile_threshold_attained",
    "C16_areas_are_object_sizes",
    "C16_percentile_ignores_order",
    "C16_percentile_interpolates"
   ],
   "note": "Refuted: object_ids_keep[0] = -1 removes the first real object. Partial: every other object is kept exactly when it has at least threshold cells; counts exact; the threshold is the percentile of the sizes of all objects, in whatever order they are listed; failure only when there is no extreme cell."
  },
  {
   "property": "C17",
   "status": "proved",
   "theorems": [
    "C17_subset_and_whole_objects",
    "C17_stricter_rule_keeps_less",
    "C17_mesh_subset_and_whole_objects",
    "C17_mesh_stricter_rule_keeps_less"
   ],
   "note": "Proved on both grid kinds, for absolute and percentile rules (percentile shown monotone)."
  },
  {
   "property": "C18",
   "status": "partial",
   "theorems": [
    "C18_mesh_keeps_objects_above_threshold",
    "C18_size_table_never_overflows",
    "C18_reported_count_partial",
    "C18_reported_count_refuted",
    "C18_small_objects_rejected_refuted"
   ],
   "note": "Kept objects proved exact. Reported count refuted for thresholds below the pre-filter size (5 or 50 cells), and a field with only small objects is rejected; the count is proved exact for larger thresholds (partial)."
  },
  {
   "property": "C19",
   "status": "partial",
   "theorems": [
    "C19_total_area_is_extreme_cells",
    "C19_accepted_fraction_in_range",
    "C19_accepted_fraction_describes_kept_refuted"
   ],
   "note": "Total and range proved; refuted that the accepted fraction describes the kept objects (strict comparison and lost first object)."
  },
  {
   "property": "C20",
   "status": "proved",
   "theorems": [
    "C20_overlap_rows_exact",
    "C20_structured_counts_cells"
   ],
   "note": "check_overlap_slice: exact set of pairs, areas and multiplicity; structured case as a cell count."
  },
  {
   "property": "C21",
   "status": "proved",
   "theorems": [
    "C21_series_overlaps_exact"
   ],
   "note": "find_overlapping_objects over a whole series."
  },
  {
   "property": "C22",
   "status": "proved",
   "theorems": [
    "C22_threshold_exact",
    "C22_fraction_at_most_one",
    "C22_series_fraction_at_most_one"
   ],
   "note": "threshold comparison exact; fraction at most one for two fields and for a series with one-time IDs."
  },
  {
   "property": "C23",
   "status": "partial",
   "theorems": [
    "C23_keeps_footprint",
    "C23_children_of_one_parent_share_id_refuted",
    "C23_children_share_id_partial"
   ],
   "note": "Footprint and whole-object renaming proved without assumptions. Children of one parent sharing an ID is false when a child has two accepted parents (refuted); proved otherwise."
  },
  {
   "property": "C24",
   "status": "proved",
   "theorems": [
    "C24_division_covers_child"
   ],
   "note": "for the structured partitioning functions (nn and centroid)."
  },
  {
   "property": "C25",
   "status": "proved",
   "theorems": [
    "C25_tracked_cells_are_the_data",
    "C25_merging_keeps_footprint"
   ],
   "note": "Proved for the merging loop and for the whole of tracking on structured grids (identify, merge by chunks, cluster), for every partitioning method and chunking, provided the data has at least one True cell."
  },
  {
   "property": "C26",
   "status": "proved",
   "theorems": [
    "C26_new_ids_fresh"
   ],
   "note": "new IDs distinct, positive, absent from all input fields; all output IDs are input IDs of that time or new."
  },
  {
   "property": "C27",
   "status": "partial",
   "theorems": [
    "C27_events_well_formed",
    "C27_rows_padded_with_minus_one",
    "C27_n_parents_counts_parents_refuted"
   ],
   "note": "events well formed, padded tables exact, overlap_areas included; n_parents/n_children are int8 and wrong (or an OverflowError with NumPy 2) from 128 parents on (refuted)."
  },
  {
   "property": "C28",
   "status": "partial",
   "theorems": [
    "C28_chunking_irrelevant_refuted",
    "C28_chunking_irrelevant_partial",
    "C28_same_run_partial",
    "C28_same_run_refuted"
   ],
   "note": "Refuted for one-step chunks (such a chunk is never consolidated), for the loop and for whole runs; proved, for both, when all chunks after the first have at least two steps."
  },
  {
   "property": "C29",
   "status": "partial",
   "theorems": [
    "C29_nearest_parent_refuted",
    "C29_nearest_parent_seam_refuted",
    "C29_nearest_parent_partial",
    "C29_tracker_nearest_parent_partial"
   ],
   "note": "refuted: only the 3x3 bins around a cell are searched, and at the seam a partial last bin hides near parents; proved when a parent cell lies within one bin width and bins divide the grid (or no wrap)."
  },
  {
   "property": "C30",
   "status": "proved",
   "theorems": [
    "C30_nearest_centroid",
    "C30_tracker_nearest_centroid"
   ],
   "note": "centroid partitioning, first minimum."
  },
  {
   "property": "C31",
   "status": "proved",
   "theorems": [
    "C31_shortest_way_round"
   ],
   "note": "squared distance is the minimum over all longitude images."
  },
  {
   "property": "C32",
   "status": "proved",
   "theorems": [
    "C32_index_complete"
   ],
   "note": "index table equals the points of each square."
  },
  {
   "property": "C33",
   "status": "proved",
   "theorems": [
    "C33_clustering_succeeds",
    "C33_events_are_chains",
    "C33_tracked_events_are_overlap_chains"
   ],
   "note": "Clustering never fails on what tracking hands to it; two cells share an event exactly when their objects are joined by overlaps of at least the threshold between consecutive times; IDs are 1..N_events."
  },
  {
   "property": "C34",
   "status": "proved",
   "theorems": [
    "C34_presence_and_times"
   ],
   "note": "Proved for every object field and list of overlaps; times are indices."
  },
  {
   "property": "C35",
   "status": "proved",
   "theorems": [
    "C35_event_areas"
   ],
   "note": "Exact rational areas."
  },
  {
   "property": "C36",
   "status": "partial",
   "theorems": [
    "C36_ledger_lists_siblings_refuted",
    "C36_ledger_marks_merging_events_partial"
   ],
   "note": "Refuted: expanded_IDs repeats the parent list over sibling slots and is then indexed by the column of the event itself, so a merging event's row holds its own ID in every slot. Proved instead: the row is -1 unless the event takes part in a merge recorded for that time, and then its own ID."
  },
  {
   "property": "C37",
   "status": "proved",
   "theorems": [
    "C37_global_id"
   ],
   "note": "Proved, and stronger: the value is the largest original ID of the event at that time."
  },
  {
   "property": "C38",
   "status": "partial",
   "theorems": [
    "C38_object_centroid_periodic_partial",
    "C38_event_centroid_periodic_partial",
    "C38_narrow_grid_refuted",
    "C38_wide_object_refuted"
   ],
   "note": "calculate_centroid and the event centroids are periodic for shapes within half a width of the seam compared with a copy away from one edge by 100 columns; refuted on grids narrower than 200 columns and for objects wider than half the grid."
  },
  {
   "property": "C39",
   "status": "partial",
   "theorems": [
    "C39_centroid_partitioning_never_divides_partial",
    "C39_every_cell_assigned_refuted"
   ],
   "note": "False: partition_centroid_unstructured returns one label per mesh cell, assigned to the cells of the child only, so every division raises (ShapeMismatch). Proved instead for all inputs: a run that returns divided nothing (unless one ID covers the mesh)."
  },
  {
   "property": "C40",
   "status": "partial",
   "theorems": [
    "C40_reachable_cells_get_a_near_parent_partial",
    "C40_least_hops_refuted",
    "C40_every_cell_gets_a_parent_refuted"
   ],
   "note": "Least hops is false (three directions are spread one after the other within a round, parents in order); so is 'every cell gets a parent' (unreachable cells use argmin over 10 rows including fillers). Proved: with every child cell walkable within the limit each gets a parent, the covering one where there is one, at most 3x the least hops."
  },
  {
   "property": "C41",
   "status": "partial",
   "theorems": [
    "C41_new_ids_are_a_fresh_range",
    "C41_ids_distinct_partial",
    "C41_ids_distinct_refuted"
   ],
   "note": "Renumbering onto a fresh contiguous range proved; distinctness across time steps is false (collision witness), proved under the stated bound on IDs per step."
  },
  {
   "property": "C42",
   "status": "partial",
   "theorems": [
    "C42_stops_when_done_partial",
    "C42_rounds",
    "C42_result_is_converged_partial",
    "C42_failure_means_unfinished_refuted",
    "C42_result_is_converged_refuted"
   ],
   "note": "False both ways: converged exactly at max_iteration is reported as failure; strict comparison in re-queueing leaves an object with two sufficient parents. Proved: a returned result has an empty work list after fewer rounds than the limit, and no object is queued in two later rounds."
  },
  {
   "property": "C43",
   "status": "partial",
   "theorems": [
    "C43_checks_never_fire",
    "C43_limit_reported_refuted",
    "C43_recorded_merges_fit_partial"
   ],
   "note": "False: the checks use > and can never fire (proved for all inputs); the 21st merge indexes past the buffer. Proved: what is recorded stays within the buffers."
  },
  {
   "property": "C44",
   "status": "partial",
   "theorems": [
    "C44_save_then_load",
    "C44_crash_loads_new_pair_or_old_statistics_partial",
    "C44_crash_reads_steps_partial",
    "C44_first_save_is_atomic",
    "C44_crash_mixes_two_runs_refuted",
    "C44_structured_grids_cannot_checkpoint_refuted"
   ],
   "note": "Save then load is exact for every write order; at every crash point a load fails, is exact, or carries the statistics of an earlier run, and each step it reads is the new one, the old one or empty. Refuted in full: a crash over an earlier checkpoint mixes two runs, and structured trackers have no scratch_dir at all."
  },
  {
   "property": "C45",
   "status": "partial",
   "theorems": [
    "C45_second_run_fails_refuted",
    "C45_loading_runs_repeat_partial"
   ],
   "note": "Refuted: run_preprocess deletes data_bin, so a second run that does not load raises AttributeError. Loading runs repeat."
  },
  {
   "property": "C46",
   "status": "partial",
   "theorems": [
    "C46_reported_unless_inherited_partial",
    "C46_inherited_attributes_win_refuted"
   ],
   "note": "Values are the computed ones except for names among the input's own attributes, which overwrite them (refutation for every such name)."
  },
  {
   "property": "C47",
   "status": "proved",
   "theorems": [
    "C47_accepts_exactly_gap_free_series",
    "C47_report_is_accurate"
   ],
   "note": "Full claim: acceptance iff some cell has data at the first step and every such cell is complete; the reported counts are the true ones."
  },
  {
   "property": "C48",
   "status": "partial",
   "theorems": [
    "C48_returns_completed_existing_names",
    "C48_existing_names_accepted",
    "C48_refusals_are_validation_errors_partial",
    "C48_no_space_dimension_key_error_refuted",
    "C48_inference_is_idempotent"
   ],
   "note": "Proved except that a mapping without x and y and without coordinates raises KeyError, not DataValidationError."
  },
  {
   "property": "C49",
   "status": "partial",
   "theorems": [
    "C49_accepts_exactly_documented_combinations_partial",
    "C49_unknown_methods_rejected",
    "C49_rejections_are_configuration_errors_refuted"
   ],
   "note": "Exactly the documented combinations are accepted, others raise ConfigurationError; a missing day window raises TypeError, and out-of-range percentiles, negative windows and precisions are accepted."
  },
  {
   "property": "C50",
   "status": "proved",
   "theorems": [
    "C50_previous_window",
    "C50_shifting_anomalies"
   ],
   "note": "full claim, for one cell and any calendar of year/day pairs; the anomalies of shifting_baseline follow it on the smoothed values"
  },
  {
   "property": "C51",
   "status": "partial",
   "theorems": [
    "C51_no_future_partial",
    "C51_smoothed_partial",
    "C51_smoothing_leaks_refuted"
   ],
   "note": "proved for the climatology without smoothing; with smoothing the claim is false (witness) and holds up to half a smoothing window past the end of earlier years"
  },
  {
   "property": "C52",
   "status": "partial",
   "theorems": [
    "C52_keeps_exactly_later_years",
    "C52_rejects_short_series_partial",
    "C52_window_years_leave_nothing_refuted"
   ],
   "note": "Exactly the later years are kept; a series spanning exactly the window passes the check and leaves nothing."
  },
  {
   "property": "C53",
   "status": "proved",
   "theorems": [
    "C53_zero_sum_by_day",
    "C53_missing_only_where_missing",
    "C53_differences_kept",
    "C53_twice_is_once"
   ],
   "note": "zero sum per day, missing exactly where data are missing, differences within a day kept, twice is once"
  },
  {
   "property": "C54",
   "status": "proved",
   "theorems": [
    "C54_orthogonal",
    "C54_twice_is_once",
    "C54_zero_mean_forced",
    "C54_least_squares",
    "C54_components_removed"
   ],
   "note": "pinv is an argument assumed to satisfy the Moore-Penrose conditions; harmonics are arguments; also least squares, invariance under removed components, force_zero_mean is redundant"
  },
  {
   "property": "C55",
   "status": "partial",
   "theorems": [
    "C55_within_half_a_bin_partial",
    "C55_last_bin_refuted"
   ],
   "note": "Proved for order statistics at least one bin below max_anomaly; refuted for the last bin (error up to 1.5 bins). No missing values: one missing value makes the threshold missing."
  },
  {
   "property": "C56",
   "status": "proved",
   "theorems": [
    "C56_brackets_percentile"
   ],
   "note": "Full claim for odd windows 3..733 days and odd spatial windows."
  },
  {
   "property": "C57",
   "status": "partial",
   "theorems": [
    "C57_global_refuted",
    "C57_hobday_refuted",
    "C57_below_maximum_counted_partial"
   ],
   "note": "Refuted for every sample: values from max_anomaly + precision upwards are not counted at all. Partial: below max_anomaly every value counts exactly once, in the global and in the pooled day-of-year histograms."
  },
  {
   "property": "C58",
   "status": "partial",
   "theorems": [
    "C58_centred_wrapping_window_partial",
    "C58_one_day_refuted"
   ],
   "note": "Proved for odd windows 3..365; a window of one day fails with a shape mismatch for every input."
  },
  {
   "property": "C59",
   "status": "partial",
   "theorems": [
    "C59_periodic_columns_truncated_rows_partial",
    "C59_narrow_grid_refuted"
   ],
   "note": "Proved when the grid is at least as wide as the window; narrower grids count columns repeatedly."
  },
  {
   "property": "C60",
   "status": "proved",
   "theorems": [
    "C60_hobday_never_flags_nonpositive",
    "C60_global_never_flags_nonpositive"
   ],
   "note": "Full claim for both approximate thresholds, every bin width and sample."
  },
  {
   "property": "C61",
   "status": "proved",
   "theorems": [
    "C61_hobday_thresholds_monotone",
    "C61_exact_thresholds_monotone",
    "C61_global_thresholds_monotone"
   ],
   "note": "Proved for day-of-year histogram thresholds and exact thresholds of every sample; also for the approximate global threshold when some value lies inside the range and the sample has fewer than about 5e9 * precision / (max_anomaly + 3 precision) values (the code's 1e-10 tolerance)."
  },
  {
   "property": "C62",
   "status": "partial",
   "theorems": [
    "C62_regular_chunks",
    "C62_transparent_partial",
    "C62_irregular_array_refuted",
    "C62_cleanup_refuted"
   ],
   "note": "Partial: Datasets, and DataArrays whose chunks Zarr accepts, come back equal under every failure while the store is kept; new chunks cover the axis and suit Zarr. Refuted: a DataArray with irregular chunks returns None; with cleanup=True the returned lazy data can no longer be read."
  },
  {
   "property": "C63",
   "status": "proved",
   "theorems": [
    "C63_mode",
    "C63_level",
    "C63_setters"
   ],
   "note": "Proved for every environment, history and argument combination: mode and level, logger and handlers."
  },
  {
   "property": "C64",
   "status": "partial",
   "theorems": [
    "C64_missing_are_named_partial",
    "C64_profile_partial",
    "C64_never_reported_refuted",
    "C64_slurm_refuted"
   ],
   "note": "Relative to the table of dependencies: missing ones are named, the profile is the most comprehensive one available. Refuted for real installations: the table never looks at the machine."
  },
  {
   "property": "C65",
   "status": "partial",
   "theorems": [
    "C65_text_carries_everything_partial",
    "C65_added_later_refuted",
    "C65_newest_context_wins",
    "C65_data_info_wins",
    "C65_wrap"
   ],
   "note": "Refuted: what add_suggestion/add_context add later is not in the text. Partial: everything given at construction is, in order. Wrapping maps exception types as documented and keeps the cause."
  },
  {
   "property": "C66",
   "status": "proved",
   "theorems": [
    "C66_last_valid_wins",
    "C66_invalid_raises",
    "C66_plotter_follows",
    "C66_names_checked"
   ],
   "note": "Proved for every call history, invalid calls included, and which names a call checks."
  },
  {
   "property": "C67",
   "status": "partial",
   "theorems": [
    "C67_oversubscribes_refuted",
    "C67_within_cores_partial"
   ],
   "note": "Refuted: every positive request is started as is, the reduction branch is unreachable when physical <= logical. Partial: requests within the logical cores stay within."
  },
  {
   "property": "C68",
   "status": "partial",
   "theorems": [
    "C68_refilling_changes_nothing_partial",
    "C68_refilling_changes_nothing_refuted",
    "C68_mesh_refilling_changes_nothing",
    "C68_mesh_land_kept_refuted"
   ],
   "note": "Grids: proved from 6R cells inside the edges, refuted at edges and seam in both modes. Meshes: proved for every ocean cell when marks on land are removed in between, refuted when they are kept."
  },
  {
   "property": "C69",
   "status": "proved",
   "theorems": [
    "C69_events_containing_a_disc_survive",
    "C69_marks_only_near_extremes"
   ],
   "note": "Solid events: any disc of radius R centred in the grid that is filled in the continued field keeps all its cells in the mask."
  },
  {
   "property": "C70",
   "status": "partial",
   "theorems": [
    "C70_regional_edges_not_eroded_refuted",
    "C70_regional_edges_not_eroded_partial",
    "C70_exact_away_from_edges_partial"
   ],
   "note": "Refuted by a thin edge band in regional mode. Partial: the part inside the domain of a filled disc centred in the domain is kept up to the edge, and the result is the border-free one from 2R cells inside."
  },
  {
   "property": "C71",
   "status": "proved",
   "theorems": [
    "C71_events_without_merging_are_space_time_components"
   ],
   "note": "Proved."
  },
  {
   "property": "C72",
   "status": "proved",
   "theorems": [
    "C72_table_matches_fields"
   ],
   "note": "invariant of the serial merging loop."
  },
  {
   "property": "C73",
   "status": "proved",
   "theorems": [
    "C73_merge_parents_exact",
    "C73_recorded_event"
   ],
   "note": "one round of the loop."
  },
  {
   "property": "C74",
   "status": "proved",
   "theorems": [
    "C74_no_second_parent_left"
   ],
   "note": "termination condition of the per-step loop."
  },
  {
   "property": "C75",
   "status": "proved",
   "theorems": [
    "C75_events_have_no_gaps",
    "C75_events_without_merging_have_no_gaps"
   ],
   "note": "Proved for structured grids with merging (whole track_objects) and without merging."
  },
  {
   "property": "C76",
   "status": "proved",
   "theorems": [
    "C76_object_centroid_on_grid",
    "C76_event_centroid_on_grid"
   ],
   "note": "Proved for object and event centroids."
  },
  {
   "property": "C77",
   "status": "proved",
   "theorems": [
    "C77_event_latitude_within",
    "C77_table_within"
   ],
   "note": "Proved for every latitude axis and positive cell areas, and for the table of all events of a time step."
  },
  {
   "property": "C78",
   "status": "partial",
   "theorems": [
    "C78_event_longitude_partial",
    "C78_event_longitude_error_partial",
    "C78_event_longitude_refuted"
   ],
   "note": "Exact up to the last column and within one spacing always; refuted beyond the last column, where numpy.interp clamps."
  },
  {
   "property": "C79",
   "status": "proved",
   "theorems": [
    "C79_parallel_merging_divides"
   ],
   "note": "Whole iterative algorithm including the scratch store."
  },
  {
   "property": "C80",
   "status": "proved",
   "theorems": [
    "C80_recorded_merges_are_sound",
    "C80_parents_are_objects_of_the_step_before"
   ],
   "note": "Whole iterative algorithm including the scratch store."
  },
  {
   "property": "C81",
   "status": "partial",
   "theorems": [
    "C81_long_series_refuted",
    "C81_time_index_exact_partial"
   ],
   "note": "False: the pad int(max_objects / n_time * 100) is 0 for series longer than 100 x IDs; shown for all such inputs. Partial: exactly when the pad suffices, and then the index is the first step of every ID."
  },
  {
   "property": "C82",
   "status": "proved",
   "theorems": [
    "C82_ids_on_ocean_and_numbered_without_gaps"
   ],
   "note": "run composed of filling, filtering and tracking on structured grids."
  },
  {
   "property": "C83",
   "status": "partial",
   "theorems": [
    "C83_single_objects_cannot_be_tracked_refuted",
    "C83_other_objects_are_tracked_partial"
   ],
   "note": "Refuted for every record whose filled field is a single object (ZeroDivisionError); with a second object of the required size run succeeds."
  },
  {
   "property": "C84",
   "status": "partial",
   "theorems": [
    "C84_reported_window_is_the_one_used_partial",
    "C84_default_window_not_reported_refuted"
   ],
   "note": "Refuted for the default window on structured grids."
  },
  {
   "property": "C85",
   "status": "proved",
   "theorems": [
    "C85_preprocess_checks_everything"
   ],
   "note": "Full claim: a computation is planned only when every check passed, in the order of the code."
  },
  {
   "property": "C86",
   "status": "proved",
   "theorems": [
    "C86_seasonal_cycle_removed",
    "C86_offset_removed"
   ],
   "note": "both halves"
  },
  {
   "property": "C87",
   "status": "partial",
   "theorems": [
    "C87_complete_stays_complete_partial",
    "C87_one_gap_erases_series_refuted"
   ],
   "note": "false: one missing value erases the whole series of the cell; a complete series stays complete"
  },
  {
   "property": "C88",
   "status": "proved",
   "theorems": [
    "C88_decimal_year_order",
    "C88_year_boundary"
   ],
   "note": "order, injectivity through order, year boundary"
  },
  {
   "property": "C89",
   "status": "partial",
   "theorems": [
    "C89_zero_sum_by_day_partial",
    "C89_trend_then_days_partial",
    "C89_trend_returns_refuted"
   ],
   "note": "zero sum per day holds; what is removed is exactly the least-squares polynomial of the requested orders and then the day means; the claim that no trend is left is false (witness)"
  },
  {
   "property": "C90",
   "status": "partial",
   "theorems": [
    "C90_std_window_partial",
    "C90_missing_day_duplicates_refuted"
   ],
   "note": "holds when every day 1..366 has data; otherwise false for every calendar lacking a day: a label occurs twice"
  },
  {
   "property": "C91",
   "status": "proved",
   "theorems": [
    "C91_exact_share",
    "C91_exact_threshold_exists"
   ],
   "note": "Full claim: of the n available values at least (1-q)(n-1) reach the threshold, fewer than (1-q)(n-1)+1 exceed it, and it is missing only if all values are."
  },
  {
   "property": "C92",
   "status": "partial",
   "theorems": [
    "C92_new_year_refuted",
    "C92_same_sample_partial"
   ],
   "note": "Refuted on 1 January of non-leap years; proved for windows inside a year of a daily record."
  },
  {
   "property": "C93",
   "status": "partial",
   "theorems": [
    "C93_first_get_logger_refuted",
    "C93_later_get_logger_partial"
   ],
   "note": "Refuted: the first get_logger('marEx') reconfigures from the environment. Partial: after that, asking for loggers changes nothing."
  },
  {
   "property": "C94",
   "status": "proved",
   "theorems": [
    "C94_slurm_request",
    "C94_unsupported_memory"
   ],
   "note": "Proved for every runtime, worker count and memory size."
  },
  {
   "property": "C95",
   "status": "proved",
   "theorems": [
    "C95_accepts_exactly",
    "C95_reports_missing"
   ],
   "note": "Proved: acceptance iff all mapped names exist, and the exact list reported."
  },
  {
   "property": "C96",
   "status": "partial",
   "theorems": [
    "C96_custom_names_refuted",
    "C96_one_panel_refuted",
    "C96_panels_partial"
   ],
   "note": "Refuted: no panels at all when the dimensions have other names (meshes included), nor for a single panel. Partial: layout for two or more panels on lat/lon data."
  },
  {
   "property": "C97",
   "status": "partial",
   "theorems": [
    "C97_fresh_after_clear_partial",
    "C97_stale_refuted"
   ],
   "note": "Refuted: a file rewritten after its first plot is not read again. Partial: files unchanged since the last clear_cache are used as on disk."
  },
  {
   "property": "C98",
   "status": "partial",
   "theorems": [
    "C98_wrapped_or_unchanged",
    "C98_regular_grids_partial",
    "C98_closed_grid_refuted",
    "C98_descending_refuted"
   ],
   "note": "Partial: regular ascending grids, global and regional. Refuted: closed grids repeat their last longitude; descending grids are never closed."
  },
  {
   "property": "C99",
   "status": "partial",
   "theorems": [
    "C99_symmetric",
    "C99_cover_partial",
    "C99_inverted_refuted"
   ],
   "note": "Partial: order and coverage for symmetric limits or a non-zero lower percentile. Refuted: with lower percentile 0 and negative data the limits are inverted."
  },
  {
   "property": "C100",
   "status": "proved",
   "theorems": [
    "C100_own_colour",
    "C100_small_map_refused"
   ],
   "note": "Proved for the default and for given colour maps; the integer width of matplotlib's BoundaryNorm is not modelled."
  },
  {
   "property": "C101",
   "status": "partial",
   "theorems": [
    "C101_frames",
    "C101_even_frames",
    "C101_custom_names_refuted"
   ],
   "note": "Frames proved complete, distinct, in order and even. Refuted: plain grids whose coordinates are not called lat/lon cannot be animated."
  },
  {
   "property": "C102",
   "status": "partial",
   "theorems": [
    "C102_default_name_refuted",
    "C102_given_name_partial"
   ],
   "note": "Refuted: the default name ends in .mp4.mp4. Partial: a given name without extension."
  },
  {
   "property": "C103",
   "status": "proved",
   "theorems": [
    "C103_mesh_events"
   ],
   "note": "Full claim for nearest-neighbour partitioning (centroid partitioning fails on meshes, C39), whenever tracking returns."
  },
  {
   "property": "C104",
   "status": "proved",
   "theorems": [
    "C104_mesh_event_properties"
   ],
   "note": "Full claim for nearest-neighbour partitioning, whenever tracking returns."
  },
  {
   "property": "C105",
   "status": "partial",
   "theorems": [
    "C105_failures_partial",
    "C105_tracking_succeeds_refuted"
   ],
   "note": "Refuted: two new IDs of different days coincide and tracking fails. Partial: clustering never fails; without extremes it always fails; every other failure needs an object with two parents."
  },
  {
   "property": "C106",
   "status": "proved",
   "theorems": [
    "C106_unmerged_objects"
   ],
   "note": "Full claim."
  },
  {
   "property": "C107",
   "status": "partial",
   "theorems": [
    "C107_one_step_block_refuted",
    "C107_longer_blocks_partial"
   ],
   "note": "Refuted for every field in which an object has two parents, when a chunk of one step is left. Partial: with longer chunks that failure never occurs."
  },
  {
   "property": "C108",
   "status": "proved",
   "theorems": [
    "C108_run_on_a_mesh"
   ],
   "note": "Full claim for runs that do not load, nearest-neighbour partitioning."
  },
  {
   "property": "C109",
   "status": "proved",
   "theorems": [
    "C109_centroid_minimises",
    "C109_centroid_within",
    "C109_centroid_poleward"
   ],
   "note": "Full claim, over exact reals (float32 rounding not modelled)."
  },
  {
   "property": "C110",
   "status": "partial",
   "theorems": [
    "C110_centroid_invariant",
    "C110_centroid_moves_partial",
    "C110_compact_moves",
    "C110_centroid_moves_refuted"
   ],
   "note": "Order, unit and turn: full claim. Moving with the object: proved whenever the mean vector of the cells is not zero, in particular for cells within less than 90 degrees of a point; refuted for a vanishing mean vector, which is always reported at (0,0)."
  },
  {
   "property": "C111",
   "status": "proved",
   "theorems": [
    "C111_centroid_of_one_place"
   ],
   "note": "Full claim."
  },
  {
   "property": "C112",
   "status": "partial",
   "theorems": [
    "C112_mesh_labels_nearest",
    "C112_haversine_is_the_arc",
    "C112_nearest_row",
    "C112_outside",
    "C112_nearest_parent_partial",
    "C112_nearest_parent_refuted"
   ],
   "note": "Distance and choice among the rows of the array: full claim. Only real parents: proved for cells at least as near to some parent as to 80N 80E; refuted for all others when fewer than ten parents, because unused rows hold -1e10 degrees, which is that point."
  },
  {
   "property": "C113",
   "status": "proved",
   "theorems": [
    "C113_object_table"
   ],
   "note": "Full claim."
  },
  {
   "property": "C114",
   "status": "proved",
   "theorems": [
    "C114_event_table"
   ],
   "note": "Full claim."
  },
  {
   "property": "C115",
   "status": "partial",
   "theorems": [
    "C115_masked_cells_not_extreme_partial",
    "C115_masked_cells_extreme_refuted"
   ],
   "note": "Proved for detrend_harmonic, detrend_fixed_baseline, and fixed_baseline with approximate percentiles. Refuted for fixed_baseline with exact percentiles and for shifting_baseline: preprocess_data does not apply the mask to extreme_events."
  },
  {
   "property": "C116",
   "status": "partial",
   "theorems": [
    "C116_ocean_cells_complete_partial",
    "C116_missing_anomaly_silences",
    "C116_ocean_cell_silenced_refuted"
   ],
   "note": "Proved for all methods but shifting_baseline (thresholds of approximate day-of-year percentiles are C57). Refuted for shifting_baseline with approximate global percentiles; proved that one missing anomaly then leaves the cell without any extreme."
  },
  {
   "property": "C117",
   "status": "proved",
   "theorems": [
    "C117_removed_signals_change_nothing",
    "C117_offsets_change_nothing"
   ],
   "note": "Full claim for the modelled run; pinv is assumed to satisfy the Moore-Penrose conditions when a detrending method is used."
  },
  {
   "property": "C118",
   "status": "proved",
   "theorems": [
    "C118_results_are_local"
   ],
   "note": "Full claim."
  },
  {
   "property": "C119",
   "status": "proved",
   "theorems": [
    "C119_flagged_share"
   ],
   "note": "Full claim (all methods but the shifting baseline, whose series can have holes)."
  },
  {
   "property": "C120",
   "status": "partial",
   "theorems": [
    "C120_succeeds_exactly",
    "C120_documented_runs_fail_refuted"
   ],
   "note": "Exact characterisation of success once the checks pass; refuted as stated: exact global percentiles on meshes below 4445 cells, day windows of 1 or above 733 days with approximate percentiles, coordinates without x or y, empty results."
  },
  {
   "property": "C121",
   "status": "proved",
   "theorems": [
    "C121_time_axis"
   ],
   "note": "Full claim."
  },
  {
   "property": "C122",
   "status": "partial",
   "theorems": [
    "C122_dates_partial",
    "C122_other_times_refuted",
    "C122_centroids_of_plotted_ids_partial",
    "C122_object_ids_ignored_refuted"
   ],
   "note": "Partial: one point for every ID occurring as a value of the plotted data with a centroid, and no other; over a whole animation, at the frame's date when the centroids have the animation's times. Refuted: when another field is plotted, object_ids is not used, so objects are not marked and data values equal to an ID are; centroids at other times are marked on the wrong day."
  },
  {
   "property": "C123",
   "status": "partial",
   "theorems": [
    "C123_large_objects_are_returned_refuted",
    "C123_run_on_a_grid_partial"
   ],
   "note": "full statement false: the object of the earliest extreme cell is never returned (refuted); everything else proved"
  },
  {
   "property": "C124",
   "status": "partial",
   "theorems": [
    "C124_timing_is_transparent_refuted",
    "C124_timing_is_transparent_partial",
    "C124_memory_reading_refuted",
    "C124_records",
    "C124_progress_bars_are_transparent"
   ],
   "note": "refuted for zero durations in verbose mode and for failing memory readings; otherwise proved for every block, with the exact records. progress_bar proved without restriction"
  },
  {
   "property": "C125",
   "status": "partial",
   "theorems": [
    "C125_unprintable_arguments_refuted",
    "C125_reused_decorators_log_to_the_first_module_refuted",
    "C125_decorated_calls_are_transparent_partial",
    "C125_summary"
   ],
   "note": "refuted for arguments without repr and for reused decorators; otherwise proved, with the text of the call"
  },
  {
   "property": "C126",
   "status": "partial",
   "theorems": [
    "C126_progress_missed_refuted",
    "C126_progress_partial",
    "C126_silent"
   ],
   "note": "refuted (frequency 5, 11 of 20; frequency 0); proved: no spurious records for any frequency up to totals of 2^44, exactness for frequencies 10 (default), 20, 25, 30, 40, 50, silence in quiet mode"
  },
  {
   "property": "C127",
   "status": "partial",
   "theorems": [
    "C127_datasets_are_not_described_refuted",
    "C127_dask_info_is_harmless_partial"
   ],
   "note": "refuted for Datasets; harmlessness proved for all objects, description for arrays"
  },
  {
   "property": "C128",
   "status": "partial",
   "theorems": [
    "C128_units_do_not_matter_partial",
    "C128_approximate_percentiles_depend_on_units_refuted"
   ],
   "note": "Proved for exact percentiles and all four anomaly methods (pinv_correct as in C117 for the detrending ones). Approximate percentiles bin in fixed units: refuted by a witness."
  },
  {
   "property": "C129",
   "status": "partial",
   "theorems": [
    "C129_removed_signals_give_the_same_events",
    "C129_units_give_the_same_events_partial",
    "C129_units_change_events_refuted"
   ],
   "note": "Removed signals: proved for both percentile methods. Units: proved for exact percentiles, refuted for approximate ones (see C128)."
  },
  {
   "property": "C130",
   "status": "proved",
   "theorems": [
    "C130_events_come_from_extremes"
   ],
   "note": "Full claim for structured grids, even T_fill."
  },
  {
   "property": "C131",
   "status": "partial",
   "theorems": [
    "C131_events_without_filling_partial",
    "C131_first_object_missing_refuted"
   ],
   "note": "All but the object of the first exceedance, which the filter drops (C16, C123; refuted with it)."
  },
  {
   "property": "C132",
   "status": "partial",
   "theorems": [
    "C132_steady_partial",
    "C132_turning_the_globe_turns_the_events_refuted",
    "C132_turning_the_globe_turns_the_events_partial",
    "C132_filled_partial",
    "C132_filled_steady_partial",
    "C132_at_the_seam_refuted"
   ],
   "note": "Refuted by the dropped first object, and with filling by a cross at the seam. Partial: any R_fill (R_fill > 0 with extremes two radii away from the seam before and after the turn), even T_fill, any rule, dropped objects correspond or are below the threshold; all statistics; number and grouping of events without merging, and with merging when nothing merges or splits."
  },
  {
   "property": "C133",
   "status": "partial",
   "theorems": [
    "C133_steady_partial",
    "C133_merging_partial",
    "C133_quiet_steps_refuted",
    "C133_quiet_steps_only_shift_the_events_partial"
   ],
   "note": "Refuted with merging when the added steps change which chunks have one step. Partial: even T_fill and R_fill >= 0; statistics and event cells for both modes; number and grouping of events without merging, and with merging when nothing merges or splits; the identical ID field and merges, shifted, with merging in chunks of two or more steps (the first may have one)."
  },
  {
   "property": "C134",
   "status": "partial",
   "theorems": [
    "C134_axis_direction_does_not_matter_refuted",
    "C134_axis_direction_does_not_matter_partial",
    "C134_steady_partial"
   ],
   "note": "Refuted by the dropped first object. Partial: every R_fill, T_fill and rule, dropped objects correspond or are below the threshold; all statistics; number and grouping of events without merging, and with merging when nothing merges or splits."
  },
  {
   "property": "C135",
   "status": "partial",
   "theorems": [
    "C135_steady_partial",
    "C135_merging_refuted",
    "C135_later_data_keep_earlier_events_refuted",
    "C135_later_data_keep_earlier_events_partial"
   ],
   "note": "Refuted for the percentile filter, in the last T_fill steps, and with merging and splitting (a continuation joins events of the past, for both partitionings). Partial: absolute threshold and even T_fill, steps more than T_fill before the end unchanged; event cells and common IDs are kept even later when an extreme occurs that early (the dropped object is then the same); with merging, equal events when nothing merges or splits."
  },
  {
   "property": "C136",
   "status": "partial",
   "theorems": [
    "C136_areas_cover_the_sphere_refuted",
    "C136_cell_area_partial",
    "C136_areas_cover_the_sphere_partial"
   ],
   "note": "Refuted for rows at the poles. Partial: exact area of every cell that ends at or before the poles; grids of n rows of 180/n degrees and 2n columns add up to the sphere."
  },
  {
   "property": "C137",
   "status": "partial",
   "theorems": [
    "C137_any_spatial_chunks_refuted",
    "C137_any_spatial_chunks_partial",
    "C137_mesh_chunks_partial"
   ],
   "note": "Refuted for coordinates in several chunks, neighbours not dask-backed or in several chunks. Partial: every chunking of data and mask."
  },
  {
   "property": "C138",
   "status": "proved",
   "theorems": [
    "C138_standardised_fields",
    "C138_masked_cells_not_flagged"
   ],
   "note": "square root an argument; anomalies exact"
  },
  {
   "property": "C139",
   "status": "partial",
   "theorems": [
    "C139_other_runs_unchanged",
    "C139_succeeds_exactly",
    "C139_missing_day_raises_refuted"
   ],
   "note": "proved for records that contain all 366 days; refuted for others (label alignment raises)"
  },
  {
   "property": "C140",
   "status": "partial",
   "theorems": [
    "C140_small_units_refuted",
    "C140_converted_runs_succeed",
    "C140_std_follows_units",
    "C140_units_do_not_matter_partial"
   ],
   "note": "proved when STD does not cross 1e-10; refuted otherwise"
  },
  {
   "property": "C141",
   "status": "proved",
   "theorems": [
    "C141_constant_std_same_flags",
    "C141_single_day_same_flags"
   ],
   "note": ""
  },
  {
   "property": "C142",
   "status": "partial",
   "theorems": [
    "C142_approximate_day_thresholds",
    "C142_exact_day_thresholds",
    "C142_approximate_global_thresholds_partial",
    "C142_beyond_the_bins_refuted"
   ],
   "note": "Refuted for approximate percentiles that lie above max_anomaly. Partial for approximate global percentiles (values in the last bin are off by more, C55), which need a complete series below max_anomaly; day-of-year thresholds within 1.5 bins, exact ones exactly."
  },
  {
   "property": "C143",
   "status": "partial",
   "theorems": [
    "C143_grid_marks_near_extremes",
    "C143_mesh_marks_near_extremes_partial",
    "C143_mesh_marks_near_extremes_refuted"
   ],
   "note": "Grids: full claim (displacements of R_fill/2 and then R_fill through seam or edge). Meshes: refuted (a channel with land behind it is marked without any extreme and passes the size filter); proved for T_fill = 0, without land, and (3.5 R_fill) when every land cell has ocean within R_fill."
  },
  {
   "property": "C144",
   "status": "proved",
   "theorems": [
    "C144_attributes_identify_the_result",
    "C144_parameters_are_recorded",
    "C144_steps_tell_runs_apart"
   ],
   "note": "Floats recorded as exact rationals; the run is preprocess_std of Standardised.v. C144_steps_tell_runs_apart is the sentence-level version."
  },
  {
   "property": "C145",
   "status": "proved",
   "theorems": [
    "C145_no_rechunking_in_the_tracker",
    "C145_time_chunks",
    "C145_threshold_chunks"
   ],
   "note": "xarray's chunk() is modelled by split_axis."
  },
  {
   "property": "C146",
   "status": "partial",
   "theorems": [
    "C146_grid_values_partial",
    "C146_transposed_refuted",
    "C146_tree_shows_nearest_cells",
    "C146_tree_shows_cells",
    "C146_triangles_show_their_cells",
    "C146_bad_triangles_raise",
    "C146_triangles_refuted"
   ],
   "note": "Grids stored as (lat, lon), meshes with a table of nearest cells and triangulations with one value per triangle: proved. Refuted for (lon, lat) arrays and triangulations with values at the points."
  },
  {
   "property": "C147",
   "status": "partial",
   "theorems": [
    "C147_one_scale",
    "C147_colours_as_asked",
    "C147_no_bar_for_ids",
    "C147_panel_shows_its_step",
    "C147_limits_partial",
    "C147_default_limits_partial",
    "C147_limits_refuted"
   ],
   "note": "Shared scale and panel contents: full claim. Automatic limits: proved without a time dimension, without percentiles at most 8% of the values plus two are outside; refuted with a time dimension (every tenth step)."
  },
  {
   "property": "C148",
   "status": "partial",
   "theorems": [
    "C148_frames_partial",
    "C148_projection_refuted",
    "C148_meshes_refuted",
    "C148_seam_refuted"
   ],
   "note": "Partial: unwrapped grids and k-d tree meshes, default projection, grid lines, given scale. Refuted for projections, global grids, triangulations and missing grid files."
  },
  {
   "property": "C149",
   "status": "partial",
   "theorems": [
    "C149_named_maps_refuted",
    "C149_ids_partial"
   ],
   "note": "Refuted for maps given by name; proved for lists and the default."
  },
  {
   "property": "C150",
   "status": "partial",
   "theorems": [
    "C150_directory_exists_partial",
    "C150_refused_starts_refuted",
    "C150_closed_newer_cluster_refuted"
   ],
   "note": "Holds while the object returned by the last configuring call is kept. False after a refused start and after closing the newer of two clusters: the configured directory is gone although a client is in use."
  },
  {
   "property": "C151",
   "status": "partial",
   "theorems": [
    "C151_own_settings_kept_partial",
    "C151_own_settings_replaced_refuted"
   ],
   "note": "Keys outside marEx's defaults are kept, configure_dask's own argument wins. Default keys are reset by every start."
  },
  {
   "property": "C152",
   "status": "partial",
   "theorems": [
    "C152_connection_partial",
    "C152_no_port_refuted"
   ],
   "note": "Holds for scheme://host:port/path with any host. Links without a port raise ValueError after the cluster has been started."
  },
  {
   "property": "C153",
   "status": "partial",
   "theorems": [
    "C153_grid_statistics_partial",
    "C153_mesh_statistics_partial",
    "C153_accepted_fraction_refuted",
    "C153_small_objects_refuted"
   ],
   "note": "Counts, totals and the preprocessed fraction hold on grids and, but for small objects missing from N_objects_prefiltered, on meshes, where the accepted fraction is right too. On grids the accepted fraction counts the dropped first object and not objects at the threshold: refuted."
  },
  {
   "property": "C154",
   "status": "proved",
   "theorems": [
    "C154_merging_only_divides_events"
   ],
   "note": "Grid runs; the run with merging must return (it can fail where the other does not, C42)."
  },
  {
   "property": "C155",
   "status": "partial",
   "theorems": [
    "C155_events_only_shrink_refuted",
    "C155_fewer_events_refuted",
    "C155_stricter_threshold_partial",
    "C155_steady_grid_partial",
    "C155_mesh_refuted",
    "C155_mesh_partial"
   ],
   "note": "With merging events may be united by a stricter threshold (C155_events_only_shrink_refuted on grids, C155_mesh_refuted on meshes) and their number may grow (C155_fewer_events_refuted). Proved on grids and meshes: threshold monotone, event cells a subset; no uniting relative to a laxer run without merging, nor with merging when no object of the laxer run has two overlapping parents (meshes), nor two parents or two children (grids)."
  },
  {
   "property": "C156",
   "status": "partial",
   "theorems": [
    "C156_cell_numbers_partial",
    "C156_cell_numbers_refuted"
   ],
   "note": "Proved when no two objects of a step have a common successor, also for other partition tables, set orders and block lengths; with merges refuted: ties between parents are broken by cell numbers (C156_cell_numbers_refuted)."
  },
  {
   "property": "C157",
   "status": "partial",
   "theorems": [
    "C157_cut_out_has_the_same_events_refuted",
    "C157_cut_out_has_the_same_events_partial",
    "C157_steady_partial"
   ],
   "note": "Refuted when extremes touch the cut-out's edge and holes are filled. Partial: radius 0, or no extreme cell on an edge of the cut-out and, if the whole grid is global, none within twice the radius of its edges; T_fill even; number and grouping of events without merging, and with merging when nothing merges or splits."
  },
  {
   "property": "C158",
   "status": "proved",
   "theorems": [
    "C158_merges_dataset",
    "C158_merges_are_overlaps"
   ],
   "note": "Whole iterative algorithm and the merges dataset of a run; areas exact (float32 rounding not modelled)."
  },
  {
   "property": "C159",
   "status": "partial",
   "theorems": [
    "C159_steady_grid_partial",
    "C159_mesh_backwards_refuted",
    "C159_mesh_backwards_partial",
    "C159_backwards_the_same_events_refuted",
    "C159_backwards_the_same_events_partial"
   ],
   "note": "Refuted by the dropped first object, which is another one in the other direction; on meshes by a joining, which backwards is a split. Partial: the dropped objects correspond or are both below the threshold; T_fill even (as the constructor requires); number and grouping of events without merging, and with merging when nothing merges or splits; on meshes when no two objects have a common successor and none has two successors."
  },
  {
   "property": "C160",
   "status": "partial",
   "theorems": [
    "C160_more_extremes_more_event_cells_refuted",
    "C160_more_extremes_more_event_cells_partial",
    "C160_more_extremes_on_a_mesh"
   ],
   "note": "Proved on meshes. On grids refuted (the object dropped by the filter may be another one); proved that only cells of the dropped object are lost, and the grouping when none is."
  },
  {
   "property": "C161",
   "status": "partial",
   "theorems": [
    "C161_longer_gaps_more_event_cells_refuted",
    "C161_longer_gaps_more_event_cells_partial",
    "C161_longer_gaps_on_a_mesh"
   ],
   "note": "Proved on meshes with mutual neighbours. On grids refuted from T_fill = 0 with R_fill = 3 (second, smaller fill); proved from a positive T_fill, or R_fill at most 1, except for the dropped object."
  },
  {
   "property": "C162",
   "status": "partial",
   "theorems": [
    "C162_lower_percentile_more_event_cells_partial",
    "C162_lower_percentile_on_a_mesh",
    "C162_cells_lost_refuted"
   ],
   "note": "Exact percentiles and approximate day-of-year percentiles (approximate global ones: see C61). Proved on meshes. On grids refuted (the object dropped by the filter can grow); proved that all extremes are kept and only cells of the dropped object are lost, and the grouping when none is."
  },
  {
   "property": "C163",
   "status": "partial",
   "theorems": [
    "C163_steady_grid_partial",
    "C163_mesh_refuted",
    "C163_grid_refuted",
    "C163_same_cells_on_grids",
    "C163_same_cells_on_meshes",
    "C163_higher_overlap_threshold_partial"
   ],
   "note": "Event cells and statistics are the same for any two thresholds, on grids and meshes. That events are only divided is refuted with merges on meshes and grids (an object divided at the lower threshold can belong to one parent at the higher). Partial: meshes where at the lower threshold no two objects have a common successor, and grids where at the lower threshold nothing merges and nothing splits."
  },
  {
   "property": "C164",
   "status": "proved",
   "theorems": [
    "C164_counts_decided_exactly",
    "C164_grid_pairs"
   ],
   "note": "Rounding modelled to nearest even with unbounded exponents. Exactness for all thresholds p/q with cells*q <= 2^52."
  },
  {
   "property": "C165",
   "status": "proved",
   "theorems": [
    "C165_fraction_at_most_one",
    "C165_decisions_outside_margin"
   ],
   "note": "Float32 sums in cell order (np.add.at). The Example C165_margin_needed shows that a margin is necessary. The final statistics and centroids are not covered."
  },
  {
   "property": "C166",
   "status": "partial",
   "theorems": [
    "C166_object_at_percentile_kept_refuted",
    "C166_binary_quartiles_exact_partial",
    "C166_between_neighbouring_areas"
   ],
   "note": "Refuted: 26 objects at quartile 0.28. Proved: exact for quartiles k/2^j (default 0.5), and for every quartile between two neighbouring sorted areas at a position right up to 2^-50."
  },
  {
   "property": "C167",
   "status": "partial",
   "theorems": [
    "C167_grid_refuted",
    "C167_event_cells_of_a_region",
    "C167_events_of_a_region_partial"
   ],
   "note": "Meshes: event cells proved in general (with merges too), events when no two objects of a step have a common successor. Refuted on grids: the filter drops the first object, wherever it is."
  },
  {
   "property": "C168",
   "status": "partial",
   "theorems": [
    "C168_end_of_record_refuted",
    "C168_merges_refuted",
    "C168_same_early_cells",
    "C168_same_early_events_partial"
   ],
   "note": "Refuted in the last T_fill steps and with merges (a later object can join two earlier events). Proved: event cells up to T_fill before the records part, merges or not; events there when no two objects of a step have a common successor."
  },
  {
   "property": "C169",
   "status": "partial",
   "theorems": [
    "C169_grid_refuted",
    "C169_tracked_again_partial"
   ],
   "note": "Proved for meshes (any filling and any merges in the first run): same IDs, count and merges. Refuted on grids: the filter drops the first object of what it is given."
  },
  {
   "property": "C170",
   "status": "partial",
   "theorems": [
    "C170_strait_refuted",
    "C170_quiet_steps_same_cells",
    "C170_quiet_steps_same_events_partial"
   ],
   "note": "Cells and statistics proved with merges, events and their number without; for even T_fill, mutual neighbours, and T_fill = 0, R_fill <= 1 or no land. Refuted in general by a channel between two coasts."
  },
  {
   "property": "C171",
   "status": "partial",
   "theorems": [
    "C171_steady_objects_partial",
    "C171_unmerged_objects_refuted",
    "C171_fewer_objects_partial"
   ],
   "note": "Partial: holds when also no object splits; with a split the parts count as one object and the claim fails (refuted)."
  },
  {
   "property": "C172",
   "status": "partial",
   "theorems": [
    "C172_unmerged_settings_refuted",
    "C172_settings_partial"
   ],
   "note": "Partial: holds when also no object splits; with chunks of one step a split is treated differently (refuted)."
  },
  {
   "property": "C173",
   "status": "partial",
   "theorems": [
    "C173_text_stays",
    "C173_own_context_refuted",
    "C173_own_context_partial",
    "C173_alone_when_built"
   ],
   "note": "Partial: additions stay apart when no other error holds the same dictionary or list and the program does not write to them itself; errors built from one non-empty dictionary or list share it (refuted). That text, class and code never change is proved in full."
  },
  {
   "property": "C174",
   "status": "partial",
   "theorems": [
    "C174_factories",
    "C174_dictionary_kept_refuted",
    "C174_dictionary_kept_partial"
   ],
   "note": "Partial: class, code, context and text are proved in full; the caller's dictionary is left alone only when the factory has nothing to add (refuted for all three)."
  },
  {
   "property": "C175",
   "status": "partial",
   "theorems": [
    "C175_report_partial",
    "C175_report_refuted"
   ],
   "note": "Partial: relative to the table of packages; the table never looks at the installation (refuted)."
  },
  {
   "property": "C176",
   "status": "partial",
   "theorems": [
    "C176_no_merge_recorded_partial",
    "C176_no_merge_recorded_refuted"
   ],
   "note": "Refuted where objects split (parts that rejoin are not recorded). Partial: the merges dataset is empty exactly when nothing merges, for records where nothing splits, any partitioning and any time chunks."
  },
  {
   "property": "C177",
   "status": "partial",
   "theorems": [
    "C177_mode_matters_for_merges_refuted",
    "C177_mode_does_not_matter_partial",
    "C177_mode_steady_partial"
   ],
   "note": "Refuted with merging (objects are divided by distances around the globe). Partial: equal results without merging (IDs, statistics, errors); with merging when nothing merges or splits."
  },
  {
   "property": "C178",
   "status": "proved",
   "theorems": [
    "C178_regional_tracker"
   ],
   "note": "Proved for all argument combinations of the constructor model."
  },
  {
   "property": "C179",
   "status": "proved",
   "theorems": [
    "C179_scheduler_records",
    "C179_warnings_hidden",
    "C179_filters_accumulate"
   ],
   "note": "Python's logging modelled: effective level of the scheduler's logger through its parents, filters that must all agree. Handlers of parent loggers have their own levels, not modelled."
  },
  {
   "property": "C180",
   "status": "proved",
   "theorems": [
    "C180_python_warnings",
    "C180_other_trackers_leave_warnings"
   ],
   "note": "warnings.filters as a list, first match decides, equal entries moved to the front; whether a shown warning repeats (once per location) is not modelled."
  },
  {
   "property": "C181",
   "status": "partial",
   "theorems": [
    "C181_times_keep_their_name_partial",
    "C181_mesh_names_refuted",
    "C181_refused"
   ],
   "note": "Only one-dimensional coordinates. False on meshes when the names differ (KeyError), so refuted there; proved for grids and for equal names."
  },
  {
   "property": "C182",
   "status": "partial",
   "theorems": [
    "C182_grid_masks",
    "C182_mesh_masks_partial",
    "C182_mesh_masks_refuted"
   ],
   "note": "Grids in full: masks that agree near extremes give the same run, failures included. Meshes: proved for T_fill = 0 (4 R_fill hops) and for masks with ocean within R_fill hops of every cell (6 R_fill hops). Refuted in general: with T_fill > 0 land far from every extreme makes events of its own."
  },
  {
   "property": "C183",
   "status": "proved",
   "theorems": [
    "C183_mesh_run",
    "C183_mesh_events",
    "C183_grid_run",
    "C183_grid_events"
   ],
   "note": "exact arithmetic; the search distance of the nearest-cell partition is the same argument in both runs, since the code computes it from the ratio of an area to the mean cell area"
  },
  {
   "property": "C184",
   "status": "partial",
   "theorems": [
    "C184_grid_equal_cells_partial",
    "C184_grid_overlap_refuted"
   ],
   "note": "proved for equal cells without merges and splits; refuted for other areas: overlaps on grids count cells"
  },
  {
   "property": "C185",
   "status": "partial",
   "theorems": [
    "C185_dates",
    "C185_default_names",
    "C185_values",
    "C185_titles_apart_partial",
    "C185_titles_apart_refuted",
    "C185_own_names_refuted",
    "C185_colour_bar"
   ],
   "note": "Dates, other dimensions and the colour bar proved; different titles only for steps of different days (refuted within a day), and the name of time must be in the configuration, not only in the plotter (refuted)"
  },
  {
   "property": "C186",
   "status": "partial",
   "theorems": [
    "C186_any_order",
    "C186_reported_area",
    "C186_whole_areas_exact",
    "C186_object_areas_refuted",
    "C186_object_areas_partial"
   ],
   "note": "Any order of additions, and NumPy's pairwise order, for the events dataset: proved for all lengths. Areas of objects on meshes used for overlaps saturate (refuted), bounded up to 2^21 cells. Float32 without overflow and subnormals."
  },
  {
   "property": "C187",
   "status": "partial",
   "theorems": [
    "C187_through_dataset",
    "C187_numbers_from_one",
    "C187_beyond_refused",
    "C187_missing_marker_refuted",
    "C187_nan_refuted",
    "C187_areas_through_dataset",
    "C187_mean_area_refuted",
    "C187_mean_area_partial"
   ],
   "note": "Reading through the dataset and directly is the same for every table and all stored areas; numbering from one proved for entries between 1-n and n. Other missing markers, NaN on x86 and the mean area refuted; mean within one part in 2^24 (exact sums)."
  },
  {
   "property": "C188",
   "status": "proved",
   "theorems": [
    "C188_untouched",
    "C188_environment",
    "C188_originals_kept",
    "C188_measuring"
   ],
   "note": "Whole of _coverage_init.py; initialize_coverage is called by nothing."
  },
  {
   "property": "C189",
   "status": "partial",
   "theorems": [
    "C189_own_directories_partial",
    "C189_one_after_the_other_partial",
    "C189_shared_directory_refuted"
   ],
   "note": "Proved for every interleaving with directories of their own, and for runs one after the other in a shared one, whatever the disk held. Refuted side by side in a shared directory. Reading and writing of a round are one step each."
  },
  {
   "property": "C190",
   "status": "partial",
   "theorems": [
    "C190_users_figures_untouched",
    "C190_own_picture_refuted",
    "C190_own_picture_partial",
    "C190_one_at_a_time"
   ],
   "note": "Calls are atomic steps. Proved for every schedule: the program's figures are untouched. Own picture: refuted with two threads, proved when no plt.figure falls between another frame's plt.figure and plt.axes, and for frames one at a time."
  },
  {
   "property": "C191",
   "status": "partial",
   "theorems": [
    "C191_random_numbers_refuted",
    "C191_random_numbers_partial",
    "C191_fonts_refuted"
   ],
   "note": "Refuted for random numbers after default ID plots and for the fonts after any plot; random numbers proved unchanged by all other plots. Of the settings only the two that plots set are modelled."
  },
  {
   "property": "C192",
   "status": "proved",
   "theorems": [
    "C192_one_colour"
   ],
   "note": "Full claim, numpy's stream as an arbitrary function of seed and position."
  },
  {
   "property": "C193",
   "status": "partial",
   "theorems": [
    "C193_bar_beside_plot_partial",
    "C193_bar_beside_plot_refuted",
    "C193_no_new_figure_refuted",
    "C193_no_new_figure_partial"
   ],
   "note": "Proved: beside the plot exactly when the axes are new or current; with a figure open in pyplot a plot on given axes opens none. Refuted otherwise."
  },
  {
   "property": "C194",
   "status": "partial",
   "theorems": [
    "C194_outlines_partial",
    "C194_only_ids",
    "C194_meshes_refuted",
    "C194_narrow_refuted",
    "C194_other_times_refuted"
   ],
   "note": "Proved on grids of at least two by two cells with object_ids at the animation's times; for all inputs an outline is that of the step with the frame's number. Refuted on meshes, on narrower grids, and for object_ids at other times."
  }
 ]
}