# Formal model of wienkers/marEx in Rocq (Coq 8.16.1)

The Python source is /repo at the pinned commit; nothing of it is run. The
model is a shallow embedding: each Python function becomes a total Gallina
function that follows it branch by branch, exceptions are values, and every
definition cites the lines it models and says what was simplified.

## Layout

`rocq/theories/`

| file | content |
|---|---|
| `Base.v`, `Graph*.v` | shared definitions (result type, counting, slices, sums, reachability) and their lemmas |
| `<Topic>.v` | the model of one part of the code; definitions only |
| `<Topic>Spec.v` | specifications that do not use the model's helpers, where a statement needs more than plain list and arithmetic notions |
| `<Topic>Proofs.v` and similar | lemmas |
| `<Topic>Witness.v` | computed counterexamples and non-vacuity data |
| `<Topic>Props.v` | the property theorems, each followed by `Print Assumptions`, with an `Example Cxx_case...` that meets the hypotheses on concrete non-trivial data |

`properties.jsonl` lists the properties, `MANIFEST.json` the theorems per
property, `seeded/LOG.jsonl` the mutation tests.

Naming: a property that holds as stated of the model has plain theorem names
(status "proved"). Where it does not hold, `..._refuted` proves the failure
(a witness or, where possible, failure for all inputs of a kind) and
`..._partial` the strongest true part that was found (status "partial").

## General modelling decisions

* Arrays are finite: flat lists per time slice, or index functions together
  with their sizes. Lazy evaluation, dask graphs and workers are not modelled:
  `map_blocks`/`apply_ufunc` are their mathematical meaning. The order in which
  parallel pieces finish is a parameter where it can matter (`Parallel.v`).
* Integers are unbounded `Z` (or `nat` for indices); int32/int64 overflow is not
  modelled except where a property is about it (C27).
* Floats are exact rationals `Q`, in `Sphere.v` and `CellArea.v` exact reals `R`; rounding to float32 and
  float64 is modelled for the overlap decisions, the area percentile (`Rounding.v`) and the
  progress log (`Instrument.v`), without overflow and subnormal numbers. NaN is `None`.
  Elsewhere square roots and trigonometry do not occur: distances are
  compared squared; harmonics, np.sqrt (`Standardised.v`) and the pseudo-inverse are
  arguments, the pseudo-inverse under the Moore-Penrose conditions.
* Library calls (dask_image morphology and label, scipy connected components,
  numpy unique/percentile/digitize/interp, pandas/xarray selection and rolling
  windows, xhistogram, flox, numba loops) are modelled by explicit functions with
  the semantics documented for those libraries. They are part of the trusted base.
* Crashes are modelled where the code writes files: the state after any prefix of
  the effects (`Run.v`, `Support.v`).

## Trusted base

* Coq's kernel (8.16.1, `coqc`; `vcheck` also runs `coqchk`).
* `Print Assumptions` under every theorem of the `*Props.v` files except
  `SphereProps.v` and `CellAreaProps.v` prints "Closed under the global context": no axiom is used,
  neither of our own nor of the standard library.
* The theorems of `SphereProps.v` (C109-C114) and `CellAreaProps.v` (C136) are about
  real numbers. `Print
  Assumptions` lists for them the standard library's axioms behind `Reals` and
  nothing else: `ClassicalDedekindReals.sig_not_dec`,
  `ClassicalDedekindReals.sig_forall_dec`,
  `FunctionalExtensionality.functional_extensionality_dep` and
  `Classical_Prop.classic`.
* `coqchk` on the whole development additionally lists the standard library's
  ssreflect `under` plumbing (`Coq.ssr.ssrunder`) and the primitive integers and
  floats loaded with the reals' dependencies, which no theorem depends on.
* The hand translation from Python to Gallina, with the simplifications listed in
  the comments of each definition.
* The library semantics named above.

## What is modelled

| file | code |
|---|---|
| `Config.v` | track.py: `__init__`, `_validate_inputs`, `_resolve_area_filtering_parameters`, `_unify_coordinates`, `_remap_coordinates`, `_setup_unstructured_grid` |
| `Chunks.v` | `_validate_spatial_chunking`, `_validate_unstructured_chunking` |
| `CellArea.v` | cell areas from `grid_resolution` in `__init__` |
| `Morph.v` | `_build_sparse_dilation_matrix`, `fill_holes` (both grids), `fill_time_gaps`, `sparse_bool_power` |
| `Label.v` | `identify_objects` (both grids) |
| `Filter.v` | `filter_small_objects` (both grids), the statistics of `run_preprocess`, `compute_area`, the cumulative IDs of `track_objects` |
| `Overlap.v` | `check_overlap_slice`, `find_overlapping_objects`, `enforce_overlap_threshold`, `consolidate_object_ids`, area and ID of `calculate_object_properties` |
| `Rounding.v` | the arithmetic of `check_overlap_slice`, `find_overlapping_objects`, `enforce_overlap_threshold`, object areas and the area percentile in float32/float64 |
| `Merge.v` | `split_and_merge_objects` with its chunk loop and merge dataset |
| `Partition.v` | `wrapped_euclidian_distance_mask_parallel`, `wrapped_euclidian_distance_points`, `create_grid_index_arrays`, `partition_nn_grid` |
| `Cluster.v` | `cluster_rename_objects_and_props`, `track_objects` (structured), `run_tracking` |
| `Centroid.v` | `calculate_centroid` and the structured event centroids |
| `MeshPart.v` | `partition_nn_unstructured_optimised`, `partition_centroid_unstructured` |
| `Parallel.v` | `split_and_merge_objects_parallel` with `process_chunk`, `merge_objects_parallel_iteration`, `update_object_id_field_zarr`, `compute_id_time_dict` |
| `DetectRun.v` | `preprocess_data` from input to returned dataset: checks, anomalies, trimming, thresholds, flags (without checkpoints, metadata, chunking) |
| `Standardised.v` | `std_normalise=True`: standardised anomalies, STD and their extremes |
| `Metadata.v` | attributes, steps in words and chunks of the dataset `preprocess_data` returns |
| `Pipeline.v` | detection followed by tracking on a structured grid, as documented: `preprocess_data`, then `tracker(ds.extreme_events, ds.mask, ...).run()` |
| `Sphere.v` | unstructured centroids in `calculate_object_properties` and the event table, its ID buffer, great-circle distances and the nearest-row choice |
| `MeshRun.v` | `run_tracking`, `track_objects` on meshes, composed from the parts above |
| `Run.v` | `run`, `run_preprocess` with checkpoints and crash points, `run_stats_attributes` |
| `Detect.v` | detect.py: `_validate_*`, `_infer_dims_coords`, the checks and dispatch of `preprocess_data`, `compute_normalised_anomaly`, `identify_extremes`, trimming, `_get_preprocessing_steps` |
| `Climatology.v` | `rolling_climatology`, `smoothed_rolling_climatology`, `_compute_anomaly_shifting_baseline`, `_compute_anomaly_fixed_baseline` |
| `Detrend.v` | `add_decimal_year`, `_compute_anomaly_detrended`, `_compute_anomaly_detrend_fixed_baseline` |
| `Histogram.v` | `_rolling_histogram_quantile`, `_compute_histogram_quantile_2d/1d`, `_identify_extremes_constant`, `_identify_extremes_hobday` |
| `Errors.v` | exceptions.py |
| `Factory.v` | exceptions.py with shared dictionaries and lists: construction, factories, later additions |
| `Report.v` | _dependencies.py: warnings and printed status |
| `Support.v` | logging_config.py (mode, level, loggers), _dependencies.py (tracker, messages), helper.py: `start_local_cluster`, `start_distributed_cluster`, `checkpoint_to_zarr` |
| `Session.v` | helper.py: `configure_dask`, `get_cluster_info`, Dask settings and temporary directories over a session |
| `Instrument.v` | logging_config.py: `log_memory_usage`, `log_timing`, `create_progress_bar`, `progress_bar`, `log_progress`, `log_function_call`, `log_dask_info` |
| `Warnings.v` | track.py: `_configure_warnings`; logging_config.py: `_configure_external_loggers`; detect.py:45, over a session |
| `Titles.v` | plotX/base.py: `_get_title`, the dates of `animate`, `_setup_colorbar` for figures with panels |
| `SumFloat.v` | track.py: float32 sums of cell areas for the events dataset (`calculate_area_centroid_for_slice`, NumPy's pairwise sum), and the cast of `cell_areas` to float32 |
| `MeshInput.v` | detect.py: neighbours and cell_areas in the dataset; track.py: casts, `_build_sparse_dilation_matrix`, the indices of `cluster_true_values` |
| `Scratch.v` | track.py: marEx_temp_field.zarr in temp_dir: the constructor, `refresh_dask_graph`, the rounds of `split_and_merge_objects_parallel`, several trackers at once |
| `Coverage.v` | _coverage_init.py, and its import in __init__.py |
| `Names.v` | track.py: names and coordinates of time from `_validate_inputs` to `run_tracking` |
| `Plot.v` | plotX: grid specification, accessor dispatch, validation, grid caches, `wrap_lon`, colour limits, ID colours, panels, animation |
| `Frames.v` | plotX/base.py: the pyplot calls of `make_frame`, several frames at once |
| `Screen.v` | plotX/base.py: `setup_id_plot_params` and numpy's global random numbers, `setup_plot_params`, `_setup_axes`, `_setup_colorbar` and pyplot's current axes |
| `Outline.v` | plotX/base.py: the outlines of object_ids and the centroids over all frames of `animate` and `make_frame` |
| `Draw.v` | plotX: `PlotConfig`, `_setup_common_params`, `single_plot`, panels, `make_frame`, marks handed to matplotlib on grids, k-d tree tables and triangulations |

## What is not modelled

* track.py:
  `update_object_id_field_inplace` and `partition_nn_unstructured` (never reached
  on the grids that could call them).
* helper.py: `fix_dask_tuple_array`.
* plotX: what matplotlib makes of the marks, fonts, coastlines, where contour lines run, figure sizes.
* Performance, memory, dask scheduling and serialisation.

## Properties

Statement and quantifier of each property are in `properties.jsonl`. "How" says what
the proof rests on; the last column what exactly is proved and what is missing.

| id | title | file | status | how | proved / missing |
|---|---|---|---|---|---|
| C01 | Area-filter parameters resolve to exactly one rule | ConfigProps | proved | decision function of two options; case analysis and range lemma | Proved for every pair of options and numeric value: which filter is chosen, and that a built tracker's rule is in range. |
| C02 | Constructor validation is complete and ordered | ConfigProps | partial | validation as an ordered list of guarded errors; first violation and completeness by induction on the list | Proved: acceptance iff every requirement, and the first violated requirement decides the error. Refuted: a missing lon/lat coordinate is not reported as a data validation error (the code indexes the coordinate first). |
| C03 | Coordinate units are detected unambiguously or rejected | ConfigProps | proved | rational interval tests with the exact double of 2*pi; disjoint intervals by linear arithmetic | Proved: unit detection on exact rational bounds. |
| C04 | Constructing a tracker does not change its input | ConfigProps | partial | state of the caller's array before and after construction; explicit radians twice | Refuted: radians input is converted in place. Partial: degrees input is left unchanged. |
| C05 | Centroid longitudes are reported in the input's convention | ConfigProps | proved | remapping on Q; range and congruence modulo a turn | Proved: range, same point on the circle, unchanged inside the range. |
| C06 | Spatial hole filling never marks masked-out (land) cells on structured grids | MorphProps | proved | padding, closing, opening, trimming and masking of index functions; pointwise | Proved for structured fill; radius 0 is the identity. |
| C07 | Spatial hole filling is monotone and local in time | MorphProps | proved | monotonicity of dilation and erosion through padding, both grid kinds | Proved for structured grids and meshes. |
| C08 | The longitude seam is invisible to hole filling on global grids | MorphProps | partial | comparison with the border-free plane filter; witness at the seam | Refuted: padding of 2R is smaller than the 4R influence, so the seam clips events. Partial: equality with the border-free filter where the seam is far, and never more than it. |
| C09 | Poles are not neighbours | MorphProps | partial | witness through wrap padding in y; locality for rows far from the poles | Refuted: padding in latitude wraps too. Partial: rows far from both poles only depend on rows nearby. |
| C10 | Temporal gaps of at most T_fill steps are filled, longer gaps are kept | MorphProps | proved | one-dimensional closing on the padded series; characterisation by gap length | Proved: exactly gaps of up to T_fill between two extremes are filled; accepted T_fill never fails. |
| C11 | Unstructured dilation reaches exactly the R-hop neighbourhood | MorphProps | proved | powers of the neighbour relation; induction on R | Proved: R applications of the neighbour matrix are the R-hop neighbourhood. |
| C12 | Unstructured hole filling never erodes the shore | MorphProps | partial | closing and opening on a graph with land forced; witness on a small mesh | Proved: ocean cells survive the shore and marks stay near extremes. Refuted: fill alone may mark land cells (masked again in identify_objects). |
| C13 | Object labels are exactly the connected components | LabelProps | proved | labels by transitive closure of the neighbour graph (Graph.v); sound and complete for paths | Proved for any grid size, with or without time connectivity and periodicity; labels are exactly 1..N. |
| C14 | Unstructured labels are exactly mesh-connected components | LabelProps | proved | same with the mesh graph | Proved for every neighbour table. |
| C15 | Object IDs are unique across time on unstructured meshes | LabelProps | proved | cumulative offsets; induction over time | Proved for every series of non-negative label fields. |
| C16 | Size filtering keeps exactly the objects at or above the threshold | FilterProps | partial | the code's `object_ids_keep[0] = -1`; witness and membership in the kept list; the percentile as linear interpolation between sorted sizes | Refuted: object_ids_keep[0] = -1 removes the first real object. Partial: every other object is kept exactly when it has at least threshold cells; counts exact; the threshold is the percentile of the sizes of all objects, in whatever order they are listed; failure only when there is no extreme cell. |
| C17 | Size filtering removes whole objects and adds nothing | FilterProps | proved | membership lemma for isin; monotone percentile | Proved on both grid kinds, for absolute and percentile rules (percentile shown monotone). |
| C18 | Unstructured size filtering uses every object's size | FilterProps | partial | padded size table; per-step keep rule | Kept objects proved exact. Reported count refuted for thresholds below the pre-filter size (5 or 50 cells), and a field with only small objects is rejected; the count is proved exact for larger thresholds (partial). |
| C19 | Preprocessing statistics are consistent | FilterProps | partial | sums of sizes over objects equal counts of cells | Total and range proved; refuted that the accepted fraction describes the kept objects (strict comparison and lost first object). |
| C20 | Overlap pairs and areas are exact | OverlapProps | proved | injectivity of the pair code; counting | check_overlap_slice: exact set of pairs, areas and multiplicity; structured case as a cell count. |
| C21 | find_overlapping_objects covers every consecutive pair of times | OverlapProps | proved | grouping sum over time steps | find_overlapping_objects over a whole series. |
| C22 | The overlap threshold is applied exactly and overlap fractions are at most 1 | OverlapProps | proved | counting inequality and exactness of the filter | threshold comparison exact; fraction at most one for two fields and for a series with one-time IDs. |
| C23 | Consolidating split children preserves the extreme footprint | MergeProps | partial | fold over splitting parents with the renaming as state; witness with two parents | Footprint and whole-object renaming proved without assumptions. Children of one parent sharing an ID is false when a child has two accepted parents (refuted); proved otherwise. |
| C24 | Splitting a merged object covers it exactly | MergeProps | proved | partition functions return one child ID per cell | for the structured partitioning functions (nn and centroid). |
| C25 | Tracking preserves the extreme footprint | ClusterProps, MergeProps | proved | invariant of the merge loop; composition with identify and cluster | Proved for the merging loop and for the whole of tracking on structured grids (identify, merge by chunks, cluster), for every partitioning method and chunking, provided the data has at least one True cell. |
| C26 | Newly created object IDs are fresh | MergeProps | proved | counter invariant of the merge loop | new IDs distinct, positive, absent from all input fields; all output IDs are input IDs of that time or new. |
| C27 | Merge events are well formed | MergeProps | partial | well-formedness of every recorded merge by induction over the loop; int8 wrap of the counts | events well formed, padded tables exact, overlap_areas included; n_parents/n_children are int8 and wrong (or an OverflowError with NumPy 2) from 128 parents on (refuted). |
| C28 | Results do not depend on time chunking | MergeProps, QuietGridProps | partial | equality of the chunked loop with the one-chunk loop by induction over chunks, carried to whole runs; witnesses with one-step chunks | Refuted for one-step chunks (such a chunk is never consolidated), for the loop and for whole runs; proved, for both, when all chunks after the first have at least two steps. |
| C29 | Nearest-neighbour partitioning assigns every cell to its nearest parent | PartitionProps | partial | what the 3x3 search visits; exactness when the bins divide the grid; witnesses | refuted: only the 3x3 bins around a cell are searched, and at the seam a partial last bin hides near parents; proved when a parent cell lies within one bin width and bins divide the grid (or no wrap). |
| C30 | Centroid partitioning assigns every cell to the nearest parent centroid | PartitionProps | proved | argmin over a list | centroid partitioning, first minimum. |
| C31 | Periodic distance is the shortest way round | PartitionProps | proved | minimum over all images, case analysis on the wrap | squared distance is the minimum over all longitude images. |
| C32 | The spatial index loses no parent cell | PartitionProps | proved | equality of the index table with a filter of the points | index table equals the points of each square. |
| C33 | Events are exactly the chains of overlapping objects | ClusterProps | proved | components of the overlap graph (Graph.v), relabelling through the dense index | Clustering never fails on what tracking hands to it; two cells share an event exactly when their objects are joined by overlaps of at least the threshold between consecutive times; IDs are 1..N_events. |
| C34 | presence, time_start and time_end agree with ID_field | ClusterProps | proved | per-slice maps over the relabelled field | Proved for every object field and list of overlaps; times are indices. |
| C35 | Event areas add up | ClusterProps | proved | sums over cells grouped by event | Exact rational areas. |
| C36 | merge_ledger lists the siblings of a merging event | ClusterProps | partial | the ledger as written and indexed by the code; witness and general form | Refuted: expanded_IDs repeats the parent list over sibling slots and is then indexed by the column of the event itself, so a merging event's row holds its own ID in every slot. Proved instead: the row is -1 unless the event takes part in a merge recorded for that time, and then its own ID. |
| C37 | global_ID maps each event back to an original object | ClusterProps | proved | maximum of the original IDs per event | Proved, and stronger: the value is the largest original ID of the event at that time. |
| C38 | Object centroids respect the periodic boundary | CentroidProps | partial | centroid over Q with the two seam tests; translation argument; witnesses | calculate_centroid and the event centroids are periodic for shapes within half a width of the seam compared with a copy away from one edge by 100 columns; refuted on grids narrower than 200 columns and for objects wider than half the grid. |
| C39 | Unstructured merges with centroid partitioning produce a valid field | ParallelProps | partial | length mismatch of labels and cells for every division | False: partition_centroid_unstructured returns one label per mesh cell, assigned to the cells of the child only, so every division raises (ShapeMismatch). Proved instead for all inputs: a run that returns divided nothing (unless one ID covers the mesh). |
| C40 | Unstructured nearest-neighbour partitioning labels every reachable child cell by graph distance | MeshPartProps | partial | frontier spreading as fold; hop invariant; witnesses | Least hops is false (three directions are spread one after the other within a round, parents in order); so is 'every cell gets a parent' (unreachable cells use argmin over 10 rows including fillers). Proved: with every child cell walkable within the limit each gets a parent, the covering one where there is one, at most 3x the least hops. |
| C41 | Provisional IDs of parallel merging are distinct | ParallelProps | partial | fresh range by sorting temporary IDs; collision witness and bound | Renumbering onto a fresh contiguous range proved; distinctness across time steps is false (collision witness), proved under the stated bound on IDs per step. |
| C42 | The parallel merge loop terminates within max_iteration or reports failure | ParallelProps | partial | loop with fuel; converged state on exit; witnesses | False both ways: converged exactly at max_iteration is reported as failure; strict comparison in re-queueing leaves an object with two sufficient parents. Proved: a returned result has an empty work list after fewer rounds than the limit, and no object is queued in two later rounds. |
| C43 | Per-chunk merge limits are reported, not overrun | ParallelProps | partial | comparisons that cannot hold within the buffers; witness with 21 merges | False: the checks use > and can never fire (proved for all inputs); the 21st merge indexes past the buffer. Proved: what is recorded stays within the buffers. |
| C44 | A checkpoint load returns what was saved, at every crash point | RunProps | partial | file effects as a list, any prefix as crash point; all interleavings of the two writes; an invariant of the store says where each step read back comes from | Save then load is exact for every write order; at every crash point a load fails, is exact, or carries the statistics of an earlier run, and each step it reads is the new one, the old one or empty. Refuted in full: a crash over an earlier checkpoint mixes two runs, and structured trackers have no scratch_dir at all. |
| C45 | run() can be repeated | RunProps | partial | tracker attribute deleted by the first run | Refuted: run_preprocess deletes data_bin, so a second run that does not load raises AttributeError. Loading runs repeat. |
| C46 | Reported attributes are the computed ones | RunProps | partial | dictionary update order | Values are the computed ones except for names among the input's own attributes, which overwrite them (refutation for every such name). |
| C47 | Data validation accepts exactly gap-free ocean series | DetectProps | proved | decision on finite/missing series; counts | Full claim: acceptance iff some cell has data at the first step and every such cell is complete; the reported counts are the true ones. |
| C48 | Dimension and coordinate inference fills defaults and validates | DetectProps | partial | mapping completion and lookup; idempotence | Proved except that a mapping without x and y and without coordinates raises KeyError, not DataValidationError. |
| C49 | identify_extremes rejects unsupported parameter combinations | DetectProps | partial | ordered checks against a documented table | Exactly the documented combinations are accepted, others raise ConfigurationError; a missing day window raises TypeError, and out-of-range percentiles, negative windows and precisions are accepted. |
| C50 | Shifting-baseline climatology uses exactly the previous window of years | ClimatologyProps | proved | list of (year, day, value); filter equivalence; the anomalies as value minus the mean of complete smoothing windows of the previous years | full claim, for one cell and any calendar of year/day pairs; the anomalies of shifting_baseline follow it on the smoothed values |
| C51 | Shifting-baseline anomalies never use the present or the future | ClimatologyProps | partial | dependence of the result on inputs by agreement on a prefix; witness | proved for the climatology without smoothing; with smoothing the claim is false (witness) and holds up to half a smoothing window past the end of earlier years |
| C52 | Trimming removes exactly the warm-up years | DetectProps | partial | filter by year | Exactly the later years are kept; a series spanning exactly the window passes the check and leaves nothing. |
| C53 | Fixed-baseline anomalies have zero mean on each day of year | ClimatologyProps | proved | finite sums by day | zero sum per day, missing exactly where data are missing, differences within a day kept, twice is once |
| C54 | Detrended anomalies are orthogonal to every removed component | DetrendProps | proved | Moore-Penrose algebra on Q | pinv is an argument assumed to satisfy the Moore-Penrose conditions; harmonics are arguments; also least squares, invariance under removed components, force_zero_mean is redundant |
| C55 | The approximate global threshold is within half a bin of the true percentile | HistogramProps | partial | position of the quantile in the cumulative histogram; witness in the last bin | Proved for order statistics at least one bin below max_anomaly; refuted for the last bin (error up to 1.5 bins). No missing values: one missing value makes the threshold missing. |
| C56 | The approximate day-of-year threshold brackets the true percentile | HistogramProps | proved | same with windows pooled in space and time | Full claim for odd windows 3..733 days and odd spatial windows. |
| C57 | Values beyond max_anomaly still count | HistogramProps | partial | the digitised index lies outside the expected groups, for every sample; bins partition the values below the maximum | Refuted for every sample: values from max_anomaly + precision upwards are not counted at all. Partial: below max_anomaly every value counts exactly once, in the global and in the pooled day-of-year histograms. |
| C58 | Day-of-year windows are centred and wrap around the year | HistogramProps | partial | sliding windows over the padded days; shape count for one day | Proved for odd windows 3..365; a window of one day fails with a shape mismatch for every input. |
| C59 | Spatial pooling of histograms is periodic in longitude and truncated in latitude | HistogramProps | partial | rolling sums over padded columns as counts over an index set | Proved when the grid is at least as wide as the window; narrower grids count columns repeatedly. |
| C60 | Zero or negative anomalies are never extreme with approximate thresholds | HistogramProps | proved | threshold raised to a positive edge, strict inequality to values <= 0 | Full claim for both approximate thresholds, every bin width and sample. |
| C61 | A higher percentile never yields more extremes | HistogramProps | proved | monotone position, search and interpolation; case analysis on the bin reaching the percentile for the global variant | Proved for day-of-year histogram thresholds and exact thresholds of every sample; also for the approximate global threshold when some value lies inside the range and the sample has fewer than about 5e9 * precision / (max_anomaly + 3 precision) values (the code's 1e-10 tolerance). |
| C62 | Zarr checkpointing of intermediates is transparent | SupportProps | partial | control flow with failure choices as arguments | Partial: Datasets, and DataArrays whose chunks Zarr accepts, come back equal under every failure while the store is kept; new chunks cover the axis and suit Zarr. Refuted: a DataArray with irregular chunks returns None; with cleanup=True the returned lazy data can no longer be read. |
| C63 | Quiet wins over verbose and explicit arguments win over the environment | SupportProps | proved | state machine over environment and calls; the three setters override the environment | Proved for every environment, history and argument combination: mode and level, logger and handlers. |
| C64 | Missing dependencies are reported before use | SupportProps | partial | table of the tracker is constant; text contains names | Relative to the table of dependencies: missing ones are named, the profile is the most comprehensive one available. Refuted for real installations: the table never looks at the machine. |
| C65 | Error messages carry every supplied piece of information | ErrorsProps | partial | formatting as concatenation in order; sub-list relation; contexts as maps where the newest value wins; exception types spelled out | Refuted: what add_suggestion/add_context add later is not in the text. Partial: everything given at construction is, in order. Wrapping maps exception types as documented and keeps the cause. |
| C66 | Global grid specification for plots is last-write-wins and validated | PlotProps | proved | fold over calls with validation; detection spelled out when no type was specified | Proved for every call history, invalid calls included, and which names a call checks. |
| C67 | Local clusters never oversubscribe logical cores | SupportProps | partial | case analysis on core counts | Refuted: every positive request is started as is, the reduction branch is unreachable when physical <= logical. Partial: requests within the logical cores stay within. |
| C68 | Filling a filled field changes nothing | MorphProps, NearProps | partial | idempotence of closing and opening on the plane and on meshes | Grids: proved from 6R cells inside the edges, refuted at edges and seam in both modes. Meshes: proved for every ocean cell when marks on land are removed in between, refuted when they are kept. |
| C69 | Solid events survive filling; marks stay near extremes | MorphProps | proved | a disc inside an event is kept by the opening; reach of the dilation | Solid events: any disc of radius R centred in the grid that is filled in the continued field keeps all its cells in the mask. |
| C70 | Regional domain edges do not erode events | MorphProps | partial | witness in regional mode; a clipped disc is kept by erosion and dilation on the padded array | Refuted by a thin edge band in regional mode. Partial: the part inside the domain of a filled disc centred in the domain is kept up to the edge, and the result is the border-free one from 2R cells inside. |
| C71 | Without merging, events are connected sets in space and time | LabelProps | proved | components of the space-time graph | Proved. |
| C72 | The object table always describes the fields | MergeProps | proved | table invariant of the merge loop | invariant of the serial merging loop. |
| C73 | A merge is recorded exactly for objects with two overlapping parents | MergeProps | proved | one round of the loop: rows with two parents | one round of the loop. |
| C74 | After a time step is processed no object has two parents | MergeProps | proved | exit condition of the per-step loop | termination condition of the per-step loop. |
| C75 | Events have no gaps in time | ClusterProps | proved | overlap pairs join consecutive steps only; path argument in time | Proved for structured grids with merging (whole track_objects) and without merging. |
| C76 | Centroids stay on the grid | CentroidProps | proved | mean of columns in range, shift by one width | Proved for object and event centroids. |
| C77 | Event centroid latitudes lie within the event | CentroidProps | proved | mean between minimum and maximum, interpolation on the axis | Proved for every latitude axis and positive cell areas, and for the table of all events of a time step. |
| C78 | Event centroid longitudes are the longitudes of the pixel centroids | CentroidProps | partial | np.interp with clamping; error bound by one spacing | Exact up to the last column and within one spacing always; refuted beyond the last column, where numpy.interp clamps. |
| C79 | Parallel merging only divides objects | ParallelProps | proved | simulation of the iterations: labels only refine objects | Whole iterative algorithm including the scratch store. |
| C80 | Merges recorded by the parallel algorithm are sound | ParallelProps | proved | invariant of the recorded merges | Whole iterative algorithm including the scratch store. |
| C81 | The time index of merging objects can be computed for every series | ParallelProps | partial | pad of zero for long series; floor arithmetic for the exact condition | False: the pad int(max_objects / n_time * 100) is 0 for series longer than 100 x IDs; shown for all such inputs. Partial: exactly when the pad suffices, and then the index is the first step of every ID. |
| C82 | A whole run returns IDs on ocean cells, numbered without gaps | RunProps | proved | composition of C10/C13/C17/C25/C33 for a whole run | run composed of filling, filtering and tracking on structured grids. |
| C83 | Every record with an object can be tracked | RunProps | partial | division by the count minus one; composition for the positive half | Refuted for every record whose filled field is a single object (ZeroDivisionError); with a second object of the required size run succeeds. |
| C84 | preprocessing_steps names the spatial window that was used | DetectProps | partial | step text against the window used | Refuted for the default window on structured grids. |
| C85 | preprocess_data computes only on fully validated input | DetectProps | proved | composition of the checks | Full claim: a computation is planned only when every check passed, in the order of the code. |
| C86 | Baselines remove seasonal cycles and constant offsets entirely | ClimatologyProps | proved | linearity of group means | both halves |
| C87 | Detrending loses no data | DetrendProps | partial | missing value propagates through the dot product | false: one missing value erases the whole series of the cell; a complete series stays complete |
| C88 | Decimal years follow the calendar | DetrendProps | proved | order of year plus fraction | order, injectivity through order, year boundary |
| C89 | detrend_fixed_baseline removes the trend and the seasonal cycle | DetrendProps | partial | composition of C53 and C54 (only the polynomial trend is fitted, then the day means of the remainder go); witness | zero sum per day holds; what is removed is exactly the least-squares polynomial of the requested orders and then the day means; the claim that no trend is left is false (witness) |
| C90 | std_normalise divides by the variability of a 30-day window around each day | DetrendProps | partial | rolling window over the padded day table; duplicates by counting | holds when every day 1..366 has data; otherwise false for every calendar lacking a day: a label occurs twice |
| C91 | Exact percentiles flag the requested share of the data | HistogramProps | proved | rank of the interpolated quantile in the sorted sample | Full claim: of the n available values at least (1-q)(n-1) reach the threshold, fewer than (1-q)(n-1)+1 exceed it, and it is missing only if all values are. |
| C92 | Exact and approximate day-of-year percentiles use the same sample | HistogramProps | partial | sets of indices of both windows; witness at new year | Refuted on 1 January of non-leap years; proved for windows inside a year of a daily record. |
| C93 | A logging mode stays in force until the next configuration | SupportProps | partial | state machine of the logger registry | Refuted: the first get_logger('marEx') reconfigures from the environment. Partial: after that, asking for loggers changes nothing. |
| C94 | SLURM requests say what was asked for | SupportProps | proved | digit strings: value and width of the padded numbers | Proved for every runtime, worker count and memory size. |
| C95 | plotX accepts exactly the arrays its mapping fits | PlotProps | proved | decision and exact list of missing names | Proved: acceptance iff all mapped names exist, and the exact list reported. |
| C96 | multi_plot draws every panel once | PlotProps | partial | panel layout arithmetic; validation with default names | Refuted: no panels at all when the dimensions have other names (meshes included), nor for a single panel. Partial: layout for two or more panels on lat/lon data. |
| C97 | Plots on meshes use the grid file on disk | PlotProps | partial | cache keyed by path; history of events | Refuted: a file rewritten after its first plot is not read again. Partial: files unchanged since the last clear_cache are used as on disk. |
| C98 | Global fields are closed at the date line, others are left alone | PlotProps | partial | append of the first column when the spacing closes the circle | Partial: regular ascending grids, global and regional. Refuted: closed grids repeat their last longitude; descending grids are never closed. |
| C99 | Automatic colour limits are in order and cover the data | PlotProps | partial | percentiles of the sorted sample | Partial: order and coverage for symmetric limits or a non-zero lower percentile. Refuted: with lower percentile 0 and negative data the limits are inverted. |
| C100 | Every event has a colour of its own | PlotProps | proved | bounds as half-integers; bin index injective | Proved for the default and for given colour maps; the integer width of matplotlib's BoundaryNorm is not modelled. |
| C101 | Animations show every time step once and in order | PlotProps | partial | batches concatenate to the whole list; zero-padded names injective | Frames proved complete, distinct, in order and even. Refuted: plain grids whose coordinates are not called lat/lon cannot be animated. |
| C102 | Animations are written to the named file | PlotProps | partial | string concatenation | Refuted: the default name ends in .mp4.mp4. Partial: a given name without extension. |
| C103 | Mesh events cover exactly the extremes and are chains of overlapping objects | MeshRunProps | proved | whole mesh pipeline: labelling, parallel merging loop (invariant `good`, division of objects), clustering | Full claim for nearest-neighbour partitioning (centroid partitioning fails on meshes, C39), whenever tracking returns. |
| C104 | Mesh events have no gaps in time and their areas add up | MeshRunProps | proved | on the same composition: chains visit every time between; areas by summation | Full claim for nearest-neighbour partitioning, whenever tracking returns. |
| C105 | Tracking on a mesh succeeds whenever there are extremes | MeshRunProps | partial | composition of all error cases; collision witness | Refuted: two new IDs of different days coincide and tracking fails. Partial: clustering never fails; without extremes it always fails; every other failure needs an object with two parents. |
| C106 | Without merging objects, mesh events are chains of connected objects | MeshRunProps | proved | empty work list ends the loop at once; labellings of the connected objects agree up to renaming | Full claim. |
| C107 | The time chunk size of mesh tracking is a free choice | MeshRunProps | partial | block sizes; a one-step block fails in every iteration, longer ones never | Refuted for every field in which an object has two parents, when a chunk of one step is left. Partial: with longer chunks that failure never occurs. |
| C108 | A run on a mesh returns the large objects of the filled data | MeshRunProps | proved | composition of clean_mesh, checkpoint write/read and track_mesh in Run.run | Full claim for runs that do not load, nearest-neighbour partitioning. |
| C109 | The centroid on a mesh is the best single point for the cells | SphereProps | proved | unit vectors and Cauchy-Schwarz over the reals; atan2 and asin inverted exactly | Full claim, over exact reals (float32 rounding not modelled). |
| C110 | Centroids on a mesh do not depend on conventions and move with the object | SphereProps | partial | the centroid depends only on the direction of the summed vector; antipodal witness | Order, unit and turn: full claim. Moving with the object: proved whenever the mean vector of the cells is not zero, in particular for cells within less than 90 degrees of a point; refuted for a vanishing mean vector, which is always reported at (0,0). |
| C111 | The centroid of one cell is the cell | SphereProps | proved | injectivity of latitude/longitude away from the poles | Full claim. |
| C112 | Centroid partitioning on a mesh uses the true distance on the sphere and only real parents | MeshPartProps, SphereProps | partial | half-angle identities; cosine decreasing on [0,pi]; induction on the scan; -1e10 degrees is 80 degrees modulo full turns | Distance and choice among the rows of the array: full claim. Only real parents: proved for cells at least as near to some parent as to 80N 80E; refuted for all others when fewer than ten parents, because unused rows hold -1e10 degrees, which is that point. |
| C113 | The object table of a mesh has one entry per object and step, with its area | SphereProps | proved | distinct positive IDs fit below the maximum; sums by ID rearranged | Full claim. |
| C114 | Event area and centroid on a mesh are those of its cells at that time | SphereProps | proved | case analysis; same table of cells | Full claim. |
| C115 | Masked cells are never flagged as extreme | DetectRunProps | partial | a missing first step makes the series, the first anomaly or the histogram mask missing; counterexamples by computation | Proved for detrend_harmonic, detrend_fixed_baseline, and fixed_baseline with approximate percentiles. Refuted for fixed_baseline with exact percentiles and for shifting_baseline: preprocess_data does not apply the mask to extreme_events. |
| C116 | Ocean cells have anomalies and thresholds everywhere | DetectRunProps | partial | validation leaves complete series; residuals and day means exist; counterexample by computation | Proved for all methods but shifting_baseline (thresholds of approximate day-of-year percentiles are C57). Refuted for shifting_baseline with approximate global percentiles; proved that one missing anomaly then leaves the cell without any extreme. |
| C117 | Signals that the baseline removes do not change the extremes | DetectRunProps | proved | anomalies equal up to ==, and sorting, digitising and comparing respect == | Full claim for the modelled run; pinv is assumed to satisfy the Moore-Penrose conditions when a detrending method is used. |
| C118 | Results at a cell depend only on its neighbourhood | DetectRunProps | proved | pooling sums read only the window; everything else is per cell | Full claim. |
| C119 | Exact global percentiles flag the requested share of every ocean cell | DetectRunProps | proved | C91 on the complete series of C116 | Full claim (all methods but the shifting baseline, whose series can have holes). |
| C120 | Documented arguments and valid data give a result | DetectRunProps | partial | each failing branch characterised; window arithmetic of the padded histogram | Exact characterisation of success once the checks pass; refuted as stated: exact global percentiles on meshes below 4445 cells, day windows of 1 or above 733 days with approximate percentiles, coordinates without x or y, empty results. |
| C121 | The result has exactly the time steps after the baseline window | DetectRunProps | proved | induction on the kept steps | Full claim. |
| C122 | Animation frames mark the centroids of the objects in the frame | OutlineProps, PlotProps | partial | set of points characterised over unique values and first matching table entry; witness with another field plotted; over whole animations frames and centroids are paired by number, which is by date when both have the same distinct times (induction); witness with centroids that begin a step later | Partial: one point for every ID occurring as a value of the plotted data with a centroid, and no other; over a whole animation, at the frame's date when the centroids have the animation's times. Refuted: when another field is plotted, object_ids is not used, so objects are not marked and data values equal to an ID are; centroids at other times are marked on the wrong day. |
| C123 | Runs on structured grids return the large objects, whole | GridRunProps | partial | composition of clean_grid, statistics and both trackers in Run.run with C16, C25, C71, C75; witness with two objects | full statement false: the object of the earliest extreme cell is never returned (refuted); everything else proved |
| C124 | Timing and progress bars do not change what they surround | InstrumentProps | partial | world-passing model of the context managers around an arbitrary block; witness with equal clock readings | refuted for zero durations in verbose mode and for failing memory readings; otherwise proved for every block, with the exact records. progress_bar proved without restriction |
| C125 | Decorated functions behave like the functions | InstrumentProps | partial | the same around an arbitrary function; induction on the decorated modules | refuted for arguments without repr and for reused decorators; otherwise proved, with the text of the call |
| C126 | log_progress reports each multiple of the frequency and nothing else | InstrumentProps | partial | rounding to double modelled on rationals with its error bound proved; percentages of multiples computed once per frequency | refuted (frequency 5, 11 of 20; frequency 0); proved: no spurious records for any frequency up to totals of 2^44, exactness for frequencies 10 (default), 20, 25, 30, 40, 50, silence in quiet mode |
| C127 | log_dask_info describes arrays and datasets and is harmless | InstrumentProps | partial | case analysis on what the object offers | refuted for Datasets; harmlessness proved for all objects, description for arrays |
| C128 | Extremes do not depend on the unit of the data | PipelineProps | partial | anomalies and exact quantiles commute with positive scaling (ScaleProofs), offsets by C117 on the scaled record; witness for histogram bins | Proved for exact percentiles and all four anomaly methods (pinv_correct as in C117 for the detrending ones). Approximate percentiles bin in fixed units: refuted by a witness. |
| C129 | Events do not depend on units, offsets and removed signals | PipelineProps | partial | equal flags and masks give the same run; C117 and C128 | Removed signals: proved for both percentile methods. Units: proved for exact percentiles, refuted for approximate ones (see C128). |
| C130 | Events come from extremes in cells with data | PipelineProps | proved | composition of DetectRun and Run in Pipeline.v; C69 twice, C10 between, triangle inequality on the continued grid; C82 for the mask | Full claim for structured grids, even T_fill. |
| C131 | Without filling, events are exactly the large connected exceedances | PipelineProps | partial | C123 on the unfilled field | All but the object of the first exceedance, which the filter drops (C16, C123; refuted with it). |
| C132 | Turning the globe turns the events | MoveGridProps, RelateProps, TurnProps | partial | two runs related by a map of cells (RelateProofs): events are connected sets of large objects, both preserved by the map; witness for the dropped object; with merging, where nothing merges or splits, the map carries overlaps and chains over (MoveGridProofs) and C171 gives the events; with filling, extremes two radii from the seam in both positions (TurnProofs): on columns without end the filter acts on the parts on either side of the cut one by one, and each part is moved as a whole; witness for a cross at the seam | Refuted by the dropped first object, and with filling by a cross at the seam. Partial: any R_fill (R_fill > 0 with extremes two radii away from the seam before and after the turn), even T_fill, any rule, dropped objects correspond or are below the threshold; all statistics; number and grouping of events without merging, and with merging when nothing merges or splits. |
| C133 | Quiet time steps before and after a record only shift the events | MoveGridProps, QuietGridProps, RelateProps | partial | the same with steps moved; filling of padded series (ext_pad, gap_pad) and of quiet images; with merging, where nothing merges or splits, the map carries overlaps and chains over (MoveGridProofs) and C171 gives the events; with merging in chunks of two or more steps: labels are numbered by first occurrence, empty steps leave the merging loop, its state and the overlaps as they are, so the whole result is the same, shifted (QuietGridProofs); refuted for other chunks by computed runs | Refuted with merging when the added steps change which chunks have one step. Partial: even T_fill and R_fill >= 0; statistics and event cells for both modes; number and grouping of events without merging, and with merging when nothing merges or splits; the identical ID field and merges, shifted, with merging in chunks of two or more steps (the first may have one). |
| C134 | The direction of the axes does not matter | FlipProps, MoveGridProps | partial | the same with reversed indices; dilation, erosion and both paddings commute with reversal (FlipProofs); with merging, where nothing merges or splits, the map carries overlaps and chains over (MoveGridProofs) and C171 gives the events | Refuted by the dropped first object. Partial: every R_fill, T_fill and rule, dropped objects correspond or are below the threshold; all statistics; number and grouping of events without merging, and with merging when nothing merges or splits. |
| C135 | Later data do not change earlier events | ExtendGridProps, ExtendProps | partial | filling of a continued record (monotone, and equal up to T_fill before the end), objects within a step, chains through kept cells; witnesses for the percentile filter and the last T_fill steps; with merging, chains of connected objects for steady records and a record whose continuation joins earlier events | Refuted for the percentile filter, in the last T_fill steps, and with merging and splitting (a continuation joins events of the past, for both partitionings). Partial: absolute threshold and even T_fill, steps more than T_fill before the end unchanged; event cells and common IDs are kept even later when an extreme occurs that early (the dropped object is then the same); with merging, equal events when nothing merges or splits. |
| C136 | Cell areas from the grid resolution are areas on the sphere | CellAreaProps | partial | fundamental theorem of calculus for cos, telescoping sum over rows; witness for rows at the poles | Refuted for rows at the poles. Partial: exact area of every cell that ends at or before the poles; grids of n rows of 180/n degrees and 2n columns add up to the sphere. |
| C137 | Inputs may be chunked in space in any way | ChunksProps | partial | model of chunk sizes and rechunking; case analysis; witnesses for chunked coordinates and neighbours | Refuted for coordinates in several chunks, neighbours not dask-backed or in several chunks. Partial: every chunking of data and mask. |
| C138 | Standardised anomalies are anomalies over the deviation of the day | StandardisedProps | proved | model of the standardising branch; rolling mean over the wrapped table of daily variances (DetrendProofs.std_value), case analysis on 1e-10 | square root an argument; anomalies exact |
| C139 | Standardising works whenever detection works | StandardisedProps | partial | labels of the wrapped table are free of duplicates exactly when all 366 days occur; witness with years of 365 days | proved for records that contain all 366 days; refuted for others (label alignment raises) |
| C140 | Standardised anomalies do not depend on units | StandardisedCaseProps, StandardisedProps | partial | variances scale with the square of the factor; quotients agree unless STD crosses 1e-10; witness that it can | proved when STD does not cross 1e-10; refuted otherwise |
| C141 | Where the deviation is the same all year, standardising changes no extreme | StandardisedProps | proved | quantiles commute with positive factors, so thresholds divide by the common deviation |  |
| C142 | Thresholds of a run are percentiles of its own anomalies | ThresholdRunProps | partial | the histogram and quantile theorems of C55, C56 and C91 on the anomalies and days that a run returns; a record whose percentile lies above max_anomaly | Refuted for approximate percentiles that lie above max_anomaly. Partial for approximate global percentiles (values in the last bin are off by more, C55), which need a complete series below max_anomaly; day-of-year thresholds within 1.5 bins, exact ones exactly. |
| C143 | Filling marks only cells near extremes | NearProps | partial | C69 and the gap theorem C10 composed; on meshes the description of both passes by hop neighbourhoods | Grids: full claim (displacements of R_fill/2 and then R_fill through seam or edge). Meshes: refuted (a channel with land behind it is marked without any extreme and passes the size filter); proved for T_fill = 0, without land, and (3.5 R_fill) when every land cell has ocean within R_fill. |
| C144 | The attributes of the returned dataset determine how it was made | MetadataProps | proved | injectivity of printed integers and sentences; dictionary lookups; a run depends only on recorded parameters | Floats recorded as exact rationals; the run is preprocess_std of Standardised.v. C144_steps_tell_runs_apart is the sentence-level version. |
| C145 | The returned dataset can be tracked as it is chunked | MetadataProps | proved | lookup in the chunk table and Euclidean division; C137's check evaluated on the result | xarray's chunk() is modelled by split_axis. |
| C146 | Every value is drawn at its own place | DrawProps | partial | marks as a list of coordinates and values; index arithmetic of transposition, wrapping and reshape; witnesses | Grids stored as (lat, lon), meshes with a table of nearest cells and triangulations with one value per triangle: proved. Refuted for (lon, lat) arrays and triangulations with values at the points. |
| C147 | One colour scale per figure | DrawProps | partial | the panel configuration carries the scale of the figure; C99 on the sample; witness | Shared scale and panel contents: full claim. Automatic limits: proved without a time dimension, without percentiles at most 8% of the values plus two are outside; refuted with a time dimension (every tenth step). |
| C148 | Frames show what single_plot shows | DrawProps | partial | both drawing paths unfolded to the same record; universal refutations by construction | Partial: unwrapped grids and k-d tree meshes, default projection, grid lines, given scale. Refuted for projections, global grids, triangulations and missing grid files. |
| C149 | IDs can be drawn with every documented colour map | DrawProps | partial | C100 and C146 composed | Refuted for maps given by name; proved for lists and the default. |
| C150 | Dask's temporary directory exists while a client is in use | SessionProps | partial | invariant over histories: existing directories are those of living objects, new names are fresh; refuted after every history by a refused start | Holds while the object returned by the last configuring call is kept. False after a refused start and after closing the newer of two clusters: the configured directory is gone although a client is in use. |
| C151 | Starting a cluster keeps the user's Dask settings | SessionProps | partial | lookup in a dictionary after a sequence of updates; refuted for every default key | Keys outside marEx's defaults are kept, configure_dask's own argument wins. Default keys are reset by every start. |
| C152 | Connection information names the dashboard's port | SessionProps | partial | induction on the link's characters; refuted for links without a port | Holds for scheme://host:port/path with any host. Links without a port raise ValueError after the cluster has been started. |
| C153 | The reported statistics describe the run | StatsRunProps | partial | the phases of C123 and C108 composed with C16, C18 and C19; sums over distinct labels counted by cells; accepted fraction refuted on a grid, count before filtering on a mesh | Counts, totals and the preprocessed fraction hold on grids and, but for small objects missing from N_objects_prefiltered, on meshes, where the accepted fraction is right too. On grids the accepted fraction counts the dropped first object and not objects at the threshold: refuted. |
| C154 | Allowing merging only divides events | RefineProps | proved | invariant of the whole loop: cells with the same ID are connected in the data (division refines, consolidation joins pieces that meet one earlier object), then C33 and C71 | Grid runs; the run with merging must return (it can fail where the other does not, C42). |
| C155 | A stricter area threshold only removes | RefineProps, ThinGridProps, ThinProps | partial | threshold monotone (C17), C123 for both runs and C154; refuted for merging and for the number of events by computed runs; on meshes the objects that are left keep their numbers (ThinProofs only_labelling, only_overlap), so chains of overlaps in the stricter run are chains in the laxer one; with merging on a grid the same where nothing merges or splits (ThinGridProps left_numbers, thin_overlap with C171) | With merging events may be united by a stricter threshold (C155_events_only_shrink_refuted on grids, C155_mesh_refuted on meshes) and their number may grow (C155_fewer_events_refuted). Proved on grids and meshes: threshold monotone, event cells a subset; no uniting relative to a laxer run without merging, nor with merging when no object of the laxer run has two overlapping parents (meshes), nor two parents or two children (grids). |
| C156 | The numbers of the cells do not matter | MeshMoveProps | partial | every phase commutes with the renumbering: dilation and closing cell by cell, object sizes up to permutation, filtering, areas and overlaps; tracking by C106; refuted with merges by a computed run | Proved when no two objects of a step have a common successor, also for other partition tables, set orders and block lengths; with merges refuted: ties between parents are broken by cell numbers (C156_cell_numbers_refuted). |
| C157 | A cut-out holding every extreme has the same events | CutProps, MoveGridProps | partial | the filter of a field away from the edges is that of the unbounded plane and stays in its rows and columns; then two runs related by a map between grids of different sizes (RelateProofs); refuted at the cut-out's edge by a computed run; with merging, where nothing merges or splits, the map carries overlaps and chains over (MoveGridProofs) and C171 gives the events | Refuted when extremes touch the cut-out's edge and holes are filled. Partial: radius 0, or no extreme cell on an edge of the cut-out and, if the whole grid is global, none within twice the radius of its edges; T_fill even; number and grouping of events without merging, and with merging when nothing merges or splits. |
| C158 | Recorded merges are the overlaps | MeshRunProps, ParallelProps | proved | the loop invariant of C79 strengthened by what each step records: parents and areas taken from the step's own fields, which divide the objects given; renaming of temporary IDs keeps overlaps; then the padded dataset of C27 | Whole iterative algorithm and the merges dataset of a run; areas exact (float32 rounding not modelled). |
| C159 | Read backwards, the events are the same | MoveGridProps, ReverseMeshProps, ReverseProps | partial | closing in time described by short gaps (C10) is symmetric; filling each step is a map; the two runs are then related by the reversal as in C132-C134; on meshes areas are permuted, overlaps are symmetric and both runs are C106's chains (UnmergedProofs), refuted with a joining; with merging, where nothing merges or splits, the map carries overlaps and chains over (MoveGridProofs) and C171 gives the events | Refuted by the dropped first object, which is another one in the other direction; on meshes by a joining, which backwards is a split. Partial: the dropped objects correspond or are both below the threshold; T_fill even (as the constructor requires); number and grouping of events without merging, and with merging when nothing merges or splits; on meshes when no two objects have a common successor and none has two successors. |
| C160 | More extremes, more event cells | GrowProps | partial | filling grows with its input (erosion, dilation and short gaps are monotone), so objects grow and stay above the threshold; grouping by the event chains of C123/C154; meshes by C108 | Proved on meshes. On grids refuted (the object dropped by the filter may be another one); proved that only cells of the dropped object are lost, and the grouping when none is. |
| C161 | A longer T_fill only adds event cells | GrowProps | partial | short gaps of T are short gaps of a longer T'; the second fill is monotone on grids and keeps balls on meshes; then as C160 | Proved on meshes with mutual neighbours. On grids refuted from T_fill = 0 with R_fill = 3 (second, smaller fill); proved from a positive T_fill, or R_fill at most 1, except for the dropped object. |
| C162 | A lower threshold_percentile only adds event cells | PercentileProps | partial | thresholds grow with the percentile (C61) in every branch of the detection run, masks and time axis do not depend on it; then C160 on the flags | Exact percentiles and approximate day-of-year percentiles (approximate global ones: see C61). Proved on meshes. On grids refuted (the object dropped by the filter can grow); proved that all extremes are kept and only cells of the dropped object are lost, and the grouping when none is. |
| C163 | A higher overlap_threshold only divides events | SteadyProps, StricterProps | partial | overlaps at a higher threshold are overlaps at a lower one, so chains of C106 at the higher are chains at the lower; events counted by an injection; refuted with merges on meshes and grids by computed runs | Event cells and statistics are the same for any two thresholds, on grids and meshes. That events are only divided is refuted with merges on meshes and grids (an object divided at the lower threshold can belong to one parent at the higher). Partial: meshes where at the lower threshold no two objects have a common successor, and grids where at the lower threshold nothing merges and nothing splits. |
| C164 | Rounding never decides an overlap on grids | RoundingProps | proved | rounding to p digits modelled; monotone, error at most 2^-53 relative; different fractions with small denominators are further apart than that | Rounding modelled to nearest even with unbounded exponents. Exactness for all thresholds p/q with cells*q <= 2^52. |
| C165 | Rounding and the overlaps on meshes | RoundingProps | proved | float32 sums in cell order; subsets have smaller sums because rounding is monotone and fixes its own values; error of n additions bounded by induction | Float32 sums in cell order (np.add.at). The Example C165_margin_needed shows that a margin is necessary. The final statistics and centroids are not covered. |
| C166 | The area percentile in doubles | RoundingProps | partial | numpy's percentile in doubles; every intermediate value of a binary quartile has at most 53 digits; else monotonicity of rounding bounds the result by the neighbouring areas; refuted by 26 objects at 0.28 | Refuted: 26 objects at quartile 0.28. Proved: exact for quartiles k/2^j (default 0.5), and for every quartile between two neighbouring sorted areas at a position right up to 2^-50. |
| C167 | What happens elsewhere does not change the events of a region | LocalProps | partial | filling looks at most 4 R + 4 (R/2) steps away; kept objects of the region cannot cross its border, so objects, areas and overlaps agree and chains stay inside; refuted on grids by the dropped first object | Meshes: event cells proved in general (with merges too), events when no two objects of a step have a common successor. Refuted on grids: the filter drops the first object, wherever it is. |
| C168 | Mesh events of the past do not depend on the future | PrefixProps | partial | closing a gap looks at most T_fill ahead, the filter works step by step; without merges events are trees, so two early objects of one event have an early common ancestor; refuted by computed runs at the end of the record and with merges | Refuted in the last T_fill steps and with merges (a later object can join two earlier events). Proved: event cells up to T_fill before the records part, merges or not; events there when no two objects of a step have a common successor. |
| C169 | Tracking the events again changes nothing | RetrackProps | partial | the objects of the kept cells are the kept objects, so the filter keeps them all and tracking sees the same field; refuted on grids by the dropped first object | Proved for meshes (any filling and any merges in the first run): same IDs, count and merges. Refuted on grids: the filter drops the first object of what it is given. |
| C170 | Quiet steps around a record on a mesh | QuietMeshProps | partial | the masked record is the old one between empty steps after each stage: closing in time, labelling, filter; overlaps and chains shift; refuted by a strait that the second pass of the filling marks | Cells and statistics proved with merges, events and their number without; for even T_fill, mutual neighbours, and T_fill = 0, R_fill <= 1 or no land. Refuted in general by a channel between two coasts. |
| C171 | Events on a grid are the chains of overlapping objects when nothing merges | SteadyProps, ThinGridProps | partial | the loop over chunks returns its input when no step has a splitting parent or a merging child (induction over chunks and steps); any numbering of the objects gives the same chains; refuted by an object that splits into a short and a long part; a run that keeps only whole objects of a steady run is steady and its events are parts (C171_fewer_objects_partial) | Partial: holds when also no object splits; with a split the parts count as one object and the claim fails (refuted). |
| C172 | Settings for merges do not matter where nothing merges | SteadyProps | partial | both loops return the initial objects, and centroids do not enter the overlaps; refuted by chunks of one step, which skip the consolidation | Partial: holds when also no object splits; with chunks of one step a split is treated differently (refuted). |
| C173 | What is added to one error stays with it | FactoryProps | partial | a world of dictionaries, lists and errors that refer to them; induction over programs with the invariant that no other error refers to the same objects; refuted by two errors built from one dictionary | Partial: additions stay apart when no other error holds the same dictionary or list and the program does not write to them itself; errors built from one non-empty dictionary or list share it (refuted). That text, class and code never change is proved in full. |
| C174 | The error factories | FactoryProps | partial | case analysis on the context keyword; the text by the theorem on formatted errors; refuted by each of the three factories | Partial: class, code, context and text are proved in full; the caller's dictionary is left alone only when the factory has nothing to add (refuted for all three). |
| C175 | The dependency report | ReportProps | partial | case analysis over the nine packages for any table; refuted because the table never looks at the installation | Partial: relative to the table of packages; the table never looks at the installation (refuted). |
| C176 | An empty merges dataset means that nothing merged | SilentProps | partial | the number of recorded merges never shrinks over rounds, steps and chunks; when it stays 0, no step had a child of two parents; witness of an object that parts and rejoins | Refuted where objects split (parts that rejoin are not recorded). Partial: the merges dataset is empty exactly when nothing merges, for records where nothing splits, any partitioning and any time chunks. |
| C177 | regional_mode does not matter away from the edges | ModeProps | partial | filling equals the plane filter in both modes, the edges of the label graph between extreme cells are the same list; with merging the loop changes nothing in steady records; witness of an object divided around the globe | Refuted with merging (objects are divided by distances around the globe). Partial: equal results without merging (IDs, statistics, errors); with merging when nothing merges or splits. |
| C178 | regional_tracker is tracker with the units stated | RegionalProps | proved | case analysis of the call and of the constructor; equality of the two constructor calls by the shared branch of unit detection | Proved for all argument combinations of the constructor model. |
| C179 | What trackers hide of the scheduler's log | WarningsProps | proved | a session is a fold over events; levels, debug attributes and attached filters after it are characterised by the last event that gives them (induction from the end); text tests equal occurrence in the text | Python's logging modelled: effective level of the scheduler's logger through its parents, filters that must all agree. Handlers of parent loggers have their own levels, not modelled. |
| C180 | What trackers hide of Python's warnings | WarningsProps | proved | the first matching entry of warnings.filters is the last settling event, by induction from the end; the two patterns are proved equal to their meaning | warnings.filters as a list, first match decides, equal entries moved to the front; whether a shown warning repeats (once per location) is not modelled. |
| C181 | The events carry the input's times under the name given | NamesProps | partial | case analysis of names and modes over association lists; refuted on meshes, where the merging step asks for the name that the constructor took away | Only one-dimensional coordinates. False on meshes when the names differ (KeyError), so refuted there; proved for grids and for equal names. |
| C182 | The mask matters only near extremes | MaskProps | partial | each pass at a cell is the mask and a value read from the disc around it, so it can only differ where that value is set, which is near an extreme (C143); closing in time acts on equal series. On meshes the marks of each pass are traced through hop neighbourhoods; labelling and the filter read the mask only at marked cells. Without ocean near every cell T_fill > 0 lets far land produce events | Grids in full: masks that agree near extremes give the same run, failures included. Meshes: proved for T_fill = 0 (4 R_fill hops) and for masks with ocean within R_fill hops of every cell (6 R_fill hops). Refuted in general: with T_fill > 0 land far from every extreme makes events of its own. |
| C183 | The unit of cell_areas does not matter | UnitProps | proved | a simulation of the parallel merge loop: areas are only compared with each other, divided by each other, or copied, so every test has the same outcome with scaled areas; the search distance is a function of the ratio of an area to the mean cell area and is the same argument in both runs. Exact arithmetic (the code uses float32) | exact arithmetic; the search distance of the nearest-cell partition is the same argument in both runs, since the code computes it from the ratio of an area to the mean cell area |
| C184 | Overlap is a fraction of the area of the smaller object | OverlapAreaProps | partial | from C171 for equal cells, where a fraction of cells is a fraction of area. False for other areas: on grids overlaps and object areas are counts of cells, cell_areas are not read | proved for equal cells without merges and splits; refuted for other areas: overlaps on grids count cells |
| C185 | Panels and frames are titled with their dates | TitlesProps | partial | case analysis on the lookups of names; the date is read back from the digits before and between the dashes; the scale of the bar from the parameters each panel is given | Dates, other dimensions and the colour bar proved; different titles only for steps of different days (refuted within a day), and the name of time must be in the configuration, not only in the plotter (refuted) |
| C186 | Reported areas are sums of cell areas up to rounding | SumFloatProps | partial | induction over the tree of additions: each addition has relative error 2^-24 and the depth of NumPy's pairwise sum grows with the logarithm of the length; whole numbers up to 2^24 are float32. False for the areas of objects on meshes, which np.add.at adds one after the other: they stop growing at 2^24 equal cells; up to 2^21 cells with a weaker bound | Any order of additions, and NumPy's pairwise order, for the events dataset: proved for all lengths. Areas of objects on meshes used for overlaps saturate (refuted), bounded up to 2^21 cells. Float32 without overflow and subnormals. |
| C187 | A mesh is read the same directly and through the dataset | MeshInputProps | partial | casts to int32 are idempotent and so is rounding to float32; indices compared with the table entry by entry. False for markers of missing values of -ncells or less (IndexError in the first clustering), for NaN on processors that cast it to -2^31, and for the mean area, which is taken before the cast: within one part in 2^24 | Reading through the dataset and directly is the same for every table and all stored areas; numbering from one proved for entries between 1-n and n. Other missing markers, NaN on x86 and the mean area refuted; mean within one part in 2^24 (exact sums). |
| C188 | Importing marEx leaves the process alone | CoverageProps | proved | case analysis on the two variables; induction over the number of imports for the functions kept | Whole of _coverage_init.py; initialize_coverage is called by nothing. |
| C189 | Trackers do not disturb each other through their scratch directories | ScratchProps | partial | an invariant over all schedules: as long as no other tracker with the same directory acts, the store holds the field of the current round and the rest of the loop gives the result alone; a measure counts the steps left. False for trackers side by side in one directory (two interleavings) | Proved for every interleaving with directories of their own, and for runs one after the other in a shared one, whatever the disk held. Refuted side by side in a shared directory. Reading and writing of a round are one step each. |
| C190 | Frames made at the same time do not mix | FramesProps | partial | an invariant over all schedules: the user's figures come first, each frame under way has one figure of its own number; with plt.figure and plt.axes not separated by another plt.figure the frame's axes are alone in it. False for two threads (one interleaving); full for frames one at a time, by induction over them | Calls are atomic steps. Proved for every schedule: the program's figures are untouched. Own picture: refuted with two threads, proved when no plt.figure falls between another frame's plt.figure and plt.axes, and for frames one at a time. |
| C191 | Plots leave the program's random numbers and settings alone | ScreenProps | partial | induction over the program; the default colours seed the global generator with 42, and every plot sets two settings | Refuted for random numbers after default ID plots and for the fonts after any plot; random numbers proved unchanged by all other plots. Of the settings only the two that plots set are modelled. |
| C192 | An event has one colour in all plots | ScreenProps | proved | rows of the colour map in closed form: row k is numbers 3k to 3k+2 of the stream of seed 42; the region of an ID is its number less one | Full claim, numpy's stream as an arbitrary function of seed and position. |
| C193 | The colour bar stands beside its plot | ScreenProps | partial | case analysis on pyplot's current axes: the bar is put beside them, which are the plot's exactly when new or current. False for the left of two subplots, and for figures pyplot does not know | Proved: beside the plot exactly when the axes are new or current; with a figure open in pyplot a plot on given axes opens none. Refuted otherwise. |
| C194 | Frames outline the objects given | OutlineProps | partial | frames and steps are paired by number; with equal distinct times the step of a frame is the one of its date (induction), and mask, shape test and emptiness are characterised cell by cell. False on meshes, on grids of one latitude or longitude, and for object_ids at other times | Proved on grids of at least two by two cells with object_ids at the animation's times; for all inputs an outline is that of the step with the frame's number. Refuted on meshes, on narrower grids, and for object_ids at other times. |

## Findings

Each is proved about the model (theorem in brackets). They are differences between
what the documentation or the code's comments promise and what the code does.

Tracking
* A missing longitude/latitude coordinate raises KeyError, not a validation error; the check that the data is dask-backed comes after operations that need it [C02].
* Coordinates in radians are converted in place in the caller's array; constructing a second tracker on it then detects other units [C04].
* grid_resolution gives rows at the poles area zero [C136]. Coordinates in several chunks of their own make the constructor fail on structured grids; neighbours must be dask-backed and in one chunk, although the warning says that they are rechunked [C137].
* Hole filling pads by 2R but looks 4R away: events at the longitude seam are clipped, and so depend on the starting column [C08, C132]; latitude is padded by wrapping too, so the poles are neighbours [C09]; in regional mode events at the domain edge are eroded [C70]; near edges and seam a second fill changes the field again [C68]; on meshes land may be marked until the next mask [C12], and as the second pass (with T_fill > 0) starts from those marks, narrow channels and lakes are marked although there is no extreme anywhere [C143], so quiet steps get events of their own [C170] and land that no path joins to an extreme decides which events there are [C182].
* `object_ids_keep[0] = -1` drops the first real object [C16]; the mesh filter's object count and the accepted-area fraction do not describe what is kept [C18, C19]; on meshes objects of up to 5 cells (50 with a quartile) are missing from N_objects_prefiltered [C153]. A record with one object cannot be tracked (ZeroDivisionError) [C83]; otherwise the result is every large object of the filled data but the first [C123], and which one is first depends on where the longitudes start, on the direction of the axes and on that of time [C132, C134, C159]; more extremes can so remove event cells [C160]. With the percentile filter later data change which earlier objects are kept [C135].
* A child with two accepted parents is not consolidated with its siblings [C23]; a chunk of one time step is never consolidated, so results depend on chunking [C28]; `n_parents` is int8 [C27].
* The nearest-parent search looks at 3x3 bins only [C29].
* Raising the area threshold can unite events when merging is allowed (the smaller parent is dropped and the child no longer divided) and can increase the number of events [C155].
* On a mesh, cells as near to one parent as to another go to the one whose cells have the smaller numbers, so events after a merge depend on how the cells are numbered [C156].
* In regional mode the edge values are repeated outwards before filling, so a piece at the edge of a cut-out too small for the opening survives where the whole grid loses it [C157].
* `merge_ledger` holds the event's own ID instead of its siblings' [C36].
* Centroids are wrong on grids narrower than 200 columns and for wide objects [C38]; event longitudes are clamped by np.interp past the last column [C78].
* Meshes: centroid partitioning raises for every division [C39]; nearest-neighbour partitioning is not by hops and filler rows can win the argmin [C40]: they hold -1e10 degrees, which is the point 80N 80E, so cells nearer to it than to every parent get a wrong index [C112]; cells with a vanishing mean vector are reported at 0N 0E [C110]; provisional IDs can collide [C41]; convergence exactly at max_iteration is reported as failure, and a returned field need not be converged [C42]; the limit checks cannot fire and the 21st merge of a step raises IndexError [C43]; compute_id_time_dict fails on long series [C81]; new IDs of different time steps can coincide, and tracking then ends in InvalidIndexError [C105]; if the time steps leave a chunk of one step and any object has two parents, tracking always ends in IndexError [C107].
* A crash while overwriting a checkpoint mixes two runs; structured trackers cannot checkpoint at all [C44]. A second `run()` raises AttributeError [C45]. Attributes of the input overwrite the reported statistics [C46].

Detection
* A mapping without "x" raises KeyError while composing the error [C48]; a missing day window raises TypeError and percentiles above 100, negative windows and precisions are accepted [C49].
* A series of exactly window_year_baseline years passes the check and yields nothing [C52]; the default spatial window is used but not reported [C84].
* Smoothing lets target-year data into the baseline [C51]; one missing value erases a detrended series [C87]; detrend_fixed_baseline reintroduces a trend [C89]; std_normalise fails on calendars lacking a day of year [C90], so it raises on every record without leap days that plain detection accepts [C139]; deviations up to 1e-10 (in the units of the record) count as none, so standardised extremes depend on the units [C140].
* The mask is not applied to the extremes: cells that only start later are flagged with exact percentiles or a shifting baseline [C115]; they reach no event when the tracker is given that mask [C130]. Approximate percentiles depend on the unit of the data, exact ones do not [C128]. With a shifting baseline one day without climatology silences a cell under approximate global percentiles [C116]. Exact global percentiles fail on meshes below 4445 cells and coordinates without x and y only at the very end [C120].
* Approximate thresholds: the last bin is off by up to 1.5 bins [C55]; values from max_anomaly + precision on are not counted [C57]; a one-day window fails [C58]; narrow grids count columns repeatedly [C59]; 1 January lacks 31 December in non-leap years [C92].

Support
* checkpoint_to_zarr returns None for DataArrays with irregular chunks and unreadable data with cleanup=True [C62]; dependencies are never checked [C64]; later suggestions do not reach the error text [C65]; errors built from one dictionary or list share it, and the factories write into the caller's dictionary and fail if given context=None together with facts [C173, C174]; the dependency report and the warning on import never find anything missing [C175]; cluster sizes are never reduced [C67]; the first get_logger("marEx") resets the mode [C93]; in verbose mode log_timing raises ZeroDivisionError after a block of zero measured duration [C124]; log_function_call does not call the function if an argument has no repr, and a reused decorator logs to the first module [C125]; log_progress misses multiples whose percentage is not exact in doubles (55 percent of 20) and raises for frequency 0 [C126]; log_dask_info never describes a Dataset, so the final record of preprocess_data is always a failure note [C127].
* A refused start_distributed_cluster (node_memory=128 in its own documentation) or closing the newer of two clusters leaves Dask configured with a deleted temporary directory [C150]; every start resets the settings the user made under the default keys [C151]; behind a proxy whose links have no port, clusters start but ValueError is raised instead of returning the client [C152].
* plotX: multi_plot ignores custom names and fails on one panel [C96]; grid caches are stale after a file changes [C97]; closed grids get a duplicate longitude, descending ones no closure [C98]; limits can be inverted [C99]; animate needs coordinates named lat/lon [C101]; the default file name ends in .mp4.mp4 [C102]; centroids drawn on frames are looked up by the plotted values, not by object_ids [C122]; arrays stored as (longitude, latitude) fail or, if square, are drawn transposed, and triangles show the mean of three cells, which for IDs is no ID [C146]; automatic limits look at every tenth step only [C147]; frames ignore the projection and the seam column, always fail on triangulations (shading "auto"), and are empty without grid files and colour bar [C148]; plot_IDs fails with a colour map given by name [C149]; panels of multi_plot always have grid lines and never labels, whatever grid_lines and grid_labels say [C147].
* On grids T_fill > 0 fills the holes a second time with radius R_fill // 2; its opening can take cells away (from R_fill = 3), so T_fill = 2 can have fewer event cells than T_fill = 0 [C161].
* A lower threshold_percentile can lose event cells on grids: the object that the filter drops can grow [C162].
* Raising overlap_threshold can join cells that a lower threshold keeps in two events: an object divided between two parents at the lower one belongs whole to the remaining parent at the higher one [C163].
* `np.percentile(areas, quartile * 100)` divides and multiplies by 100 in doubles: at 0.28 with 26 objects the position 7 becomes 7.000000000000001 and every object exactly at the percentile is dropped [C166].
* On a grid an object far away decides whether an object here is the first one and so dropped [C167].
* On a mesh an object that meets both parts of an object just divided is not divided itself (the round that would find it is over) and makes one event of two: a new time step can join events of the past [C168, C42].
* On a grid every further run on the events just found loses one more object (the first) [C169].
* On a grid the parts of an object that splits are given one number at once, and the overlap with the next step is measured against their joint area: a small part that is wholly inside its successor can lose it, and the successor starts a new event. With time chunks of one step the parts keep their own numbers, so the number of events depends on the chunking although nothing merges [C171, C172]; for the same reason quiet steps added to a record can change its events when they change the chunks [C133].
* With merging and splitting a continued record can join two of its earlier events without a merge in the merges dataset: the parts of an object that has just been divided are consolidated again when they come from a split, and together overlap another parent enough. With centroid partitioning the piece lies on the other parent and ten rounds do not help [C135].
* When the percentile of a cell lies above `max_anomaly`, the approximate threshold is off by the whole distance, without an error; the values outside the bins are not counted [C142].
* An object that parts and becomes one object again leaves no trace in the merges dataset: the parts are given one number, so an empty merges dataset does not mean that nothing merged [C176].
* In global mode an object divided between parents is divided by distances around the globe even when it ends before the date line; regional mode gives its far end to the other parent [C177].
* On a mesh a time coordinate whose name differs from its dimension always ends in KeyError: the constructor renames it and the merging step asks for the old name. On grids with merging the dimension's own coordinate, if there was one, is overwritten with the times [C181].
* A tracker with debug=1, meant to hide only the run_spec messages, hides every warning of Dask's scheduler, and lowers a CRITICAL level set by the user to ERROR; each tracker adds one more filter to that logger, and a later tracker with debug=2 shows nothing again [C179]. A tracker with debug=0 overrides a warnings filter the user added before it [C180].
* On structured grids overlap_threshold is compared with a fraction of cells, not of area as documented: cell_areas and grid_resolution only change the areas in the events dataset. An object that keeps a hundredth of its area can keep its ID [C183, C184].
* Panels and frames of one day carry the same title. The time dimension's name given to plotX() alone is not used for titles and animations: PlotConfig has its own default, so panels are titled t=2000-01-01T00:00:00 and animate raises KeyError [C185].
* On meshes object areas (np.add.at into float32) stop growing once the sum is 2^24 cell areas: an object of more equal cells than that has the area of 2^24 of them, when overlaps are compared with the threshold; the events dataset, which uses np.sum, is not affected [C186].
* A neighbour table whose missing value is -9999 works on large meshes but ends in IndexError on meshes of at most 9999 cells, where arr[neighbours_int] no longer counts from the end; NaN as missing value is refused by scipy on x86 (int32 -2^31 minus one wraps) and means no neighbour on ARM; a table counted from zero is accepted and every neighbour is off by one. mean_cell_area is taken before the cast to float32 [C187].
* Two trackers on meshes with the same temp_dir (the documentation suggests a fixed one) that run at the same time give each other's events, or fail when one is built while the other runs: both use marEx_temp_field.zarr. One after the other is safe [C189].
* animate runs its frames with dask.compute; without a distributed client (or with several threads per worker) frames share pyplot's state, and a frame whose plt.axes() comes after another's plt.figure() draws into the other's figure: one file is empty and one shows two steps [C190].
* A plot of IDs without a colour map seeds numpy's global generator with 42, so random numbers drawn afterwards repeat; every plot leaves font.family at serif [C191].
* single_plot(config, ax=...) with a colour bar puts it beside plt.gca(), not beside ax: with plt.subplots(1, 2) the bar of the left plot stands at the right one; for a figure not made by pyplot an empty figure is opened [C193].
* animate(object_ids=...) outlines nothing on meshes or grids of one latitude or longitude, and pairs steps by number, not by date: object_ids that begin a step later are drawn on the wrong day and the last frame has none, without a warning; errors are swallowed [C194]. Centroids are paired in the same way [C122].
