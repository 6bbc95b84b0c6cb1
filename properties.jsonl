{"id": "C01", "title": "Area-filter parameters resolve to exactly one rule", "statement": "marEx.tracker(...) with neither area_filter_quartile nor area_filter_absolute filters by the 0.5 quantile; with exactly one it uses that one and only that one; with both it raises ConfigurationError. A constructed tracker's quantile is in [0,1] or its absolute area is > 0.", "quantifier": "every pair of optional parameter values", "why_tests_cant": "the parameter space is infinite; tests pick a few pairs", "anchors": ["marEx/track.py:tracker._resolve_area_filtering_parameters", "marEx/track.py:tracker._validate_inputs"]}
{"id": "C02", "title": "Constructor validation is complete and ordered", "statement": "tracker(...) succeeds exactly when every documented requirement on grid type, dimensions, coordinates, dtype, neighbours/cell_areas/temp_dir, grid_resolution, mask and T_fill holds; otherwise the exception raised is the one for the first violated requirement in a fixed order, whatever else is wrong.", "quantifier": "every combination of valid/invalid arguments", "why_tests_cant": "2^n combinations of simultaneous faults; tests exercise one fault at a time", "anchors": ["marEx/track.py:tracker.__init__", "marEx/track.py:tracker._validate_inputs", "marEx/track.py:tracker._setup_unstructured_grid"]}
{"id": "C03", "title": "Coordinate units are detected unambiguously or rejected", "statement": "Without coordinate_units, a global tracker accepts longitudes whose range is within 1 of 360 as degrees and within 0.02 of 2*pi as radians, never both, and raises CoordinateError for every other range; an explicit unit is never overridden; regional mode always demands an explicit valid unit.", "quantifier": "every longitude range and every coordinate_units value", "why_tests_cant": "ranges are a continuum; boundary values decide", "anchors": ["marEx/track.py:tracker._unify_coordinates"]}
{"id": "C04", "title": "Constructing a tracker does not change its input", "statement": "Building a tracker from a DataArray leaves the caller's DataArray unchanged, so building a second tracker from the same object with the same arguments yields the same coordinates and the same detected units.", "quantifier": "every input array and every sequence of constructions", "why_tests_cant": "aliasing effects need call histories, tests build one tracker per array", "anchors": ["marEx/track.py:tracker.__init__", "marEx/track.py:tracker._unify_coordinates"]}
{"id": "C05", "title": "Centroid longitudes are reported in the input's convention", "statement": "For input longitudes in [0,360) (or [0,2*pi)) every reported centroid longitude is in that range and denotes the same point on the circle as the internally computed one; for inputs in [-180,180] it is reported unchanged.", "quantifier": "every computed centroid longitude and every input longitude range", "why_tests_cant": "continuous domain with sign and branch boundaries", "anchors": ["marEx/track.py:tracker._remap_coordinates"]}
{"id": "C06", "title": "Spatial hole filling never marks masked-out (land) cells on structured grids", "statement": "On a structured grid, after preprocessing with any R_fill and T_fill, no cell outside the mask is an extreme cell and hole filling with R_fill=0 changes nothing inside the mask.", "quantifier": "every binary field, mask, grid size and radius", "why_tests_cant": "needs every field/mask/radius combination", "anchors": ["marEx/track.py:tracker.fill_holes", "marEx/track.py:tracker.fill_time_gaps"]}
{"id": "C07", "title": "Spatial hole filling is monotone and local in time", "statement": "Adding extreme cells to the input never removes cells from the hole-filled output, and the filled field at one time depends on the input at that time only.", "quantifier": "every pair of ordered binary fields, every radius, both grid kinds", "why_tests_cant": "monotonicity is a relation between two runs over all inputs", "anchors": ["marEx/track.py:tracker.fill_holes"]}
{"id": "C08", "title": "The longitude seam is invisible to hole filling on global grids", "statement": "On a global structured grid, cyclically shifting the input field and mask in longitude cyclically shifts the hole-filled field by the same amount.", "quantifier": "every global field, mask, shift and radius", "why_tests_cant": "a hyperproperty over all shifts; tests check one layout", "anchors": ["marEx/track.py:tracker.fill_holes"]}
{"id": "C09", "title": "Poles are not neighbours", "statement": "On a global structured grid, hole filling near the northern boundary does not depend on cells at the southern boundary (latitude is not periodic).", "quantifier": "every global field and radius", "why_tests_cant": "needs all fields; tests use events far from the poles", "anchors": ["marEx/track.py:tracker.fill_holes"]}
{"id": "C10", "title": "Temporal gaps of at most T_fill steps are filled, longer gaps are kept", "statement": "The temporal closing marks a cell at time t exactly when it is extreme at t or lies in a run of at most T_fill non-extreme steps bounded on both sides by extreme steps; T_fill=0 leaves the field unchanged; the time axis is neither shortened nor lengthened.", "quantifier": "every series, every even T_fill, every position including the ends of the record", "why_tests_cant": "gap positions and lengths are unbounded", "anchors": ["marEx/track.py:tracker.fill_time_gaps"]}
{"id": "C11", "title": "Unstructured dilation reaches exactly the R-hop neighbourhood", "statement": "The R-fold sparse dilation marks a cell exactly when some marked cell is reachable from it in at most R neighbour steps, ignoring missing neighbours, for any connectivity array.", "quantifier": "every mesh connectivity, field and radius", "why_tests_cant": "needs induction over hops on arbitrary graphs", "anchors": ["marEx/track.py:sparse_bool_power", "marEx/track.py:tracker._build_sparse_dilation_matrix"]}
{"id": "C12", "title": "Unstructured hole filling never erodes the shore", "statement": "On an unstructured mesh, an extreme region whose whole R-hop surroundings are extreme or land survives hole filling: no ocean cell all of whose cells within R hops are extreme or land is lost by the opening.", "quantifier": "every mesh, mask, field and radius", "why_tests_cant": "arbitrary meshes and masks", "anchors": ["marEx/track.py:tracker.fill_holes"]}
{"id": "C13", "title": "Object labels are exactly the connected components", "statement": "identify_objects gives label 0 exactly to non-extreme cells, and two extreme cells of one time step share a label exactly when they are joined by a chain of extreme cells that are 8-neighbours (periodic in longitude unless regional).", "quantifier": "every field and grid size", "why_tests_cant": "chains are of unbounded length; needs induction on paths", "anchors": ["marEx/track.py:tracker.identify_objects"]}
{"id": "C14", "title": "Unstructured labels are exactly mesh-connected components", "statement": "On unstructured meshes two extreme ocean cells of one time step share a label exactly when joined by a chain of extreme cells consecutive in the neighbour table (in either direction); a missing neighbour entry never connects two cells.", "quantifier": "every mesh connectivity and field", "why_tests_cant": "unbounded chains on arbitrary graphs", "anchors": ["marEx/track.py:tracker.identify_objects"]}
{"id": "C15", "title": "Object IDs are unique across time on unstructured meshes", "statement": "After offsetting per-time labels, no positive ID occurs at two different times, IDs keep the per-time partition, and background stays 0.", "quantifier": "every number of time steps and per-time label counts", "why_tests_cant": "cumulative offsets over unbounded time series", "anchors": ["marEx/track.py:tracker.track_objects"]}
{"id": "C16", "title": "Size filtering keeps exactly the objects at or above the threshold", "statement": "On structured grids filter_small_objects keeps an object exactly when its cell count is at least the threshold, and N_objects_filtered is the number kept.", "quantifier": "every labelled field and threshold", "why_tests_cant": "every multiset of object sizes", "anchors": ["marEx/track.py:tracker.filter_small_objects"]}
{"id": "C17", "title": "Size filtering removes whole objects and adds nothing", "statement": "The filtered field is a subset of the unfiltered one and every object is either kept entirely or removed entirely; raising the threshold never adds cells.", "quantifier": "every field, grid kind and threshold", "why_tests_cant": "all fields and thresholds", "anchors": ["marEx/track.py:tracker.filter_small_objects"]}
{"id": "C18", "title": "Unstructured size filtering uses every object's size", "statement": "On unstructured meshes an object is kept exactly when its cell count exceeds the threshold, at each time separately, regardless of how many objects other times have.", "quantifier": "every per-time label field", "why_tests_cant": "padding across times couples all time steps", "anchors": ["marEx/track.py:tracker.filter_small_objects"]}
{"id": "C19", "title": "Preprocessing statistics are consistent", "statement": "total_area_IDed is the summed size of the pre-filter objects, accepted_area_fraction is in [0,1] and describes the objects that were kept.", "quantifier": "every set of object sizes and threshold", "why_tests_cant": "every multiset of sizes", "anchors": ["marEx/track.py:tracker.run_preprocess"]}
{"id": "C20", "title": "Overlap pairs and areas are exact", "statement": "For two consecutive fields, check_overlap reports (a,b,n) exactly when n>0 cells carry a>0 in the first and b>0 in the second, each pair once, with n the cell count (structured) or summed cell area (unstructured).", "quantifier": "every pair of label fields with any ID values", "why_tests_cant": "the pair encoding must be injective for all ID values", "anchors": ["marEx/track.py:tracker.check_overlap_slice"]}
{"id": "C21", "title": "find_overlapping_objects covers every consecutive pair of times", "statement": "The overlap list over a whole series contains a pair exactly when it overlaps at some consecutive pair of times, with area the total over those times; nothing is invented at the last step.", "quantifier": "every series length and chunking in time", "why_tests_cant": "series and chunk boundaries are unbounded", "anchors": ["marEx/track.py:tracker.find_overlapping_objects"]}
{"id": "C22", "title": "The overlap threshold is applied exactly and overlap fractions are at most 1", "statement": "enforce_overlap_threshold keeps exactly the pairs whose shared area divided by the smaller object's area is at least overlap_threshold, and that fraction never exceeds 1.", "quantifier": "every overlap list and area table", "why_tests_cant": "all areas and thresholds; needs sub-additivity over cells", "anchors": ["marEx/track.py:tracker.enforce_overlap_threshold"]}
{"id": "C23", "title": "Consolidating split children preserves the extreme footprint", "statement": "Consolidation renames object IDs at one time step only; it never turns an extreme cell into background or vice versa, leaves other times untouched and maps children of one parent to one ID.", "quantifier": "every field pair and ID set", "why_tests_cant": "arbitrary many-to-many parent/child relations", "anchors": ["marEx/track.py:tracker.consolidate_object_ids"]}
{"id": "C24", "title": "Splitting a merged object covers it exactly", "statement": "When a child with several parents is divided, every one of its cells receives one of the new child IDs, no other cell of the field changes, and the parts are disjoint.", "quantifier": "every child shape and parent set", "why_tests_cant": "all shapes and numbers of parents", "anchors": ["marEx/track.py:tracker.split_and_merge_objects"]}
{"id": "C25", "title": "Tracking preserves the extreme footprint", "statement": "With merging enabled on structured grids, the output ID_field is positive exactly at the cells of the preprocessed binary field, at every time.", "quantifier": "every input field, overlap threshold and chunking", "why_tests_cant": "the invariant runs through nested loops over an unbounded record", "anchors": ["marEx/track.py:tracker.split_and_merge_objects", "marEx/track.py:tracker.cluster_rename_objects_and_props"]}
{"id": "C26", "title": "Newly created object IDs are fresh", "statement": "Every ID created while dividing merged objects differs from every ID already in use at any time, and from every other created ID.", "quantifier": "every sequence of merges in every chunk", "why_tests_cant": "depends on the whole history of merges", "anchors": ["marEx/track.py:tracker.split_and_merge_objects"]}
{"id": "C27", "title": "Merge events are well formed", "statement": "Each recorded merge event has at least two parents, as many children as parents, parents present at the previous time, the first child keeping the merged object's ID, and unused slots filled with -1.", "quantifier": "every run", "why_tests_cant": "depends on all merge histories", "anchors": ["marEx/track.py:tracker.split_and_merge_objects"]}
{"id": "C28", "title": "Results do not depend on time chunking", "statement": "Tracking the same structured data with different time chunkings gives the same ID_field and the same merge events.", "quantifier": "every field and every pair of chunkings", "why_tests_cant": "chunkings are compositions of the record length: exponentially many", "anchors": ["marEx/track.py:tracker.split_and_merge_objects"]}
{"id": "C29", "title": "Nearest-neighbour partitioning assigns every cell to its nearest parent", "statement": "With nn_partitioning=True each cell of a merged object is assigned to a parent with a cell at minimal (periodic) distance among all parents' cells, provided that distance is at most max_distance; ties go to the lowest parent index.", "quantifier": "every child and parent geometry", "why_tests_cant": "all geometries, including the seam and grid-bin boundaries", "anchors": ["marEx/track.py:partition_nn_grid"]}
{"id": "C30", "title": "Centroid partitioning assigns every cell to the nearest parent centroid", "statement": "With nn_partitioning=False each cell goes to the parent whose centroid is at minimal (periodic in longitude) distance, ties to the lowest index, so every cell gets exactly one parent.", "quantifier": "every child geometry and parent centroids", "why_tests_cant": "all geometries", "anchors": ["marEx/track.py:wrapped_euclidian_distance_points", "marEx/track.py:tracker.split_and_merge_objects"]}
{"id": "C31", "title": "Periodic distance is the shortest way round", "statement": "The wrapped distance is symmetric, zero only at equal points modulo the period, at most the plain distance, and equals the minimum over all longitude images.", "quantifier": "every pair of points and every grid width", "why_tests_cant": "continuous/unbounded domain", "anchors": ["marEx/track.py:wrapped_euclidian_distance_points", "marEx/track.py:wrapped_euclidian_distance_mask_parallel"]}
{"id": "C32", "title": "The spatial index loses no parent cell", "statement": "create_grid_index_arrays stores every parent cell in exactly one bin of its own parent and nothing else, and bins never overflow.", "quantifier": "every point set and bin size", "why_tests_cant": "all point sets", "anchors": ["marEx/track.py:create_grid_index_arrays"]}
{"id": "C33", "title": "Events are exactly the chains of overlapping objects", "statement": "Two cells get the same event ID exactly when their objects are linked by a chain of accepted overlaps; event IDs are the contiguous range 1..N_events and background stays 0.", "quantifier": "every overlap list and object field", "why_tests_cant": "chains of unbounded length", "anchors": ["marEx/track.py:tracker.cluster_rename_objects_and_props"]}
{"id": "C34", "title": "presence, time_start and time_end agree with ID_field", "statement": "presence[t,k] holds exactly when event k has a cell at time t; time_start[k] and time_end[k] are the first and last such times.", "quantifier": "every event field", "why_tests_cant": "all histories, including events present at the first or last step or interrupted", "anchors": ["marEx/track.py:tracker.cluster_rename_objects_and_props"]}
{"id": "C35", "title": "Event areas add up", "statement": "area[t,k] is the summed cell area of the cells carrying event ID k at time t; summed over events it equals the extreme area at t.", "quantifier": "every event field and cell-area field", "why_tests_cant": "all fields", "anchors": ["marEx/track.py:tracker.cluster_rename_objects_and_props"]}
{"id": "C36", "title": "merge_ledger lists the siblings of a merging event", "statement": "merge_ledger[t,k,:] lists the IDs of the events that merge with event k at time t (-1 when none).", "quantifier": "every merge record", "why_tests_cant": "all merge histories; tests only check that the variable exists", "anchors": ["marEx/track.py:tracker.cluster_rename_objects_and_props"]}
{"id": "C37", "title": "global_ID maps each event back to an original object", "statement": "global_ID[t,k] is 0 when event k is absent at t and otherwise the pre-relabelling ID of one of its objects at t.", "quantifier": "every event field", "why_tests_cant": "all many-to-one relabellings", "anchors": ["marEx/track.py:tracker.cluster_rename_objects_and_props"]}
{"id": "C38", "title": "Object centroids respect the periodic boundary", "statement": "An object touching both longitude edges gets the same centroid, modulo the grid width, as its cyclic shift away from the edge.", "quantifier": "every object shape and grid width", "why_tests_cant": "all shapes and widths", "anchors": ["marEx/track.py:tracker.calculate_centroid"]}
{"id": "C39", "title": "Unstructured merges with centroid partitioning produce a valid field", "statement": "On unstructured meshes with nn_partitioning=False every cell of a merged child is assigned one of the parents' new IDs.", "quantifier": "every mesh, child and parents", "why_tests_cant": "all meshes", "anchors": ["marEx/track.py:partition_centroid_unstructured", "marEx/track.py:tracker.split_and_merge_objects_parallel"]}
{"id": "C40", "title": "Unstructured nearest-neighbour partitioning labels every reachable child cell by graph distance", "statement": "partition_nn_unstructured assigns each child cell reachable from a parent a parent at minimal hop distance, and every child cell some parent.", "quantifier": "every mesh, child, parents and distance limit", "why_tests_cant": "arbitrary graphs", "anchors": ["marEx/track.py:partition_nn_unstructured", "marEx/track.py:partition_nn_unstructured_optimised"]}
{"id": "C41", "title": "Provisional IDs of parallel merging are distinct", "statement": "New IDs handed out by different time steps and chunks in one parallel iteration never collide, and renumbering them to permanent IDs is a bijection onto a fresh contiguous range.", "quantifier": "every chunk layout and number of merges", "why_tests_cant": "depends on numbers of merges per step in every chunk", "anchors": ["marEx/track.py:tracker.split_and_merge_objects_parallel"]}
{"id": "C42", "title": "The parallel merge loop terminates within max_iteration or reports failure", "statement": "The iterative unstructured merge stops when nothing is left to process, or raises TrackingError; it never returns an unconverged result and never reports failure for a converged one.", "quantifier": "every iteration history", "why_tests_cant": "all convergence histories", "anchors": ["marEx/track.py:tracker.split_and_merge_objects_parallel"]}
{"id": "C43", "title": "Per-chunk merge limits are reported, not overrun", "statement": "When a time step has more merges than the fixed buffer holds, a TrackingError is raised before any buffer is indexed out of range.", "quantifier": "every number of merges", "why_tests_cant": "boundary value of a buffer", "anchors": ["marEx/track.py:tracker.split_and_merge_objects_parallel"]}
{"id": "C44", "title": "A checkpoint load returns what was saved, at every crash point", "statement": "After a successful save, load returns exactly the saved field and statistics; if the saving process dies between the two writes, load never returns a field paired with statistics of another run; whatever it returns, each time step is the step this run computed, the step stored before, or empty.", "quantifier": "every history of saves, crashes and loads", "why_tests_cant": "crash points cannot be enumerated by unit tests", "anchors": ["marEx/track.py:tracker.run_preprocess"]}
{"id": "C45", "title": "run() can be repeated", "statement": "Calling run() twice on the same tracker returns the same result twice.", "quantifier": "every call history", "why_tests_cant": "history property", "anchors": ["marEx/track.py:tracker.run", "marEx/track.py:tracker.run_preprocess"]}
{"id": "C46", "title": "Reported attributes are the computed ones", "statement": "The statistics attributes of the events dataset are the values computed by this run, for every set of attributes on the input.", "quantifier": "every input attribute dictionary", "why_tests_cant": "arbitrary attribute names may collide", "anchors": ["marEx/track.py:tracker.run_stats_attributes"]}
{"id": "C47", "title": "Data validation accepts exactly gap-free ocean series", "statement": "preprocess_data accepts data exactly when some cell is finite at the first step and each such cell is finite at all steps.", "quantifier": "every data array", "why_tests_cant": "all arrays", "anchors": ["marEx/detect.py:_validate_data_values"]}
{"id": "C48", "title": "Dimension and coordinate inference fills defaults and validates", "statement": "With no dimensions given (time,lat,lon) is assumed; partial mappings get the default time; missing names raise DataValidationError; otherwise the returned mappings contain the caller's entries unchanged.", "quantifier": "every mapping and every set of available names", "why_tests_cant": "all mappings", "anchors": ["marEx/detect.py:_infer_dims_coords"]}
{"id": "C49", "title": "identify_extremes rejects unsupported parameter combinations", "statement": "identify_extremes proceeds exactly for the documented parameter combinations and every rejected combination raises ConfigurationError; unknown methods are always rejected.", "quantifier": "every parameter combination", "why_tests_cant": "combinatorial space", "anchors": ["marEx/detect.py:identify_extremes"]}
{"id": "C50", "title": "Shifting-baseline climatology uses exactly the previous window of years", "statement": "The rolling climatology at a time of year Y and day d is the mean of the available values on day d in years Y-window..Y-1 present in the data, and is missing when Y is earlier than the first year plus the window or there are no such values.", "quantifier": "every calendar of (year, day) pairs and window", "why_tests_cant": "all calendars, gaps, leap days", "anchors": ["marEx/detect.py:rolling_climatology"]}
{"id": "C51", "title": "Shifting-baseline anomalies never use the present or the future", "statement": "Changing data in year Y or later does not change the climatology used for year Y.", "quantifier": "every data series", "why_tests_cant": "a non-interference property over all series", "anchors": ["marEx/detect.py:smoothed_rolling_climatology", "marEx/detect.py:_compute_anomaly_shifting_baseline"]}
{"id": "C52", "title": "Trimming removes exactly the warm-up years", "statement": "With method shifting_baseline the output holds exactly the input times whose year is at least the first year plus window_year_baseline, and data too short to leave any output is rejected.", "quantifier": "every calendar and window", "why_tests_cant": "boundary year counts", "anchors": ["marEx/detect.py:preprocess_data"]}
{"id": "C53", "title": "Fixed-baseline anomalies have zero mean on each day of year", "statement": "For every day of the year the anomalies produced by fixed_baseline sum to zero over the available years, and applying fixed_baseline twice equals applying it once.", "quantifier": "every series", "why_tests_cant": "algebraic law over all series", "anchors": ["marEx/detect.py:_compute_anomaly_fixed_baseline"]}
{"id": "C54", "title": "Detrended anomalies are orthogonal to every removed component", "statement": "After detrend_harmonic (exact arithmetic) the anomaly has zero mean and zero inner product with each requested polynomial trend and each annual/semi-annual harmonic, and detrending twice equals detrending once.", "quantifier": "every series and every model matrix", "why_tests_cant": "linear-algebra identity over all data", "anchors": ["marEx/detect.py:_compute_anomaly_detrended"]}
{"id": "C55", "title": "The approximate global threshold is within half a bin of the true percentile", "statement": "For data inside the histogram range the approximate global threshold differs from the order statistic at the requested percentile by at most precision/2 whenever that order statistic is at least precision.", "quantifier": "every sample and percentile", "why_tests_cant": "all samples", "anchors": ["marEx/detect.py:_compute_histogram_quantile_1d"]}
{"id": "C56", "title": "The approximate day-of-year threshold brackets the true percentile", "statement": "For data inside the histogram range the approximate Hobday threshold lies within 1.5*precision of the order statistic of the pooled window at the requested percentile (when that is at least precision).", "quantifier": "every pooled histogram and percentile", "why_tests_cant": "all histograms", "anchors": ["marEx/detect.py:_rolling_histogram_quantile", "marEx/detect.py:_compute_histogram_quantile_2d"]}
{"id": "C57", "title": "Values beyond max_anomaly still count", "statement": "Anomalies larger than max_anomaly count as samples above any threshold when the approximate percentile is computed.", "quantifier": "every sample", "why_tests_cant": "rare tail values", "anchors": ["marEx/detect.py:_compute_histogram_quantile_1d", "marEx/detect.py:_compute_histogram_quantile_2d"]}
{"id": "C58", "title": "Day-of-year windows are centred and wrap around the year", "statement": "The histogram pooled for day d sums the days d-h..d+h modulo 366 (window 2h+1), each once, for every accepted odd window including 1.", "quantifier": "every histogram and odd window", "why_tests_cant": "wrap-around at both ends and every width", "anchors": ["marEx/detect.py:_rolling_histogram_quantile"]}
{"id": "C59", "title": "Spatial pooling of histograms is periodic in longitude and truncated in latitude", "statement": "The pooled histogram at (y,x) is the sum over rows within h of y inside the grid and columns within h of x modulo the grid width.", "quantifier": "every grid size, window and histogram", "why_tests_cant": "all sizes including grids narrower than the window", "anchors": ["marEx/detect.py:_compute_histogram_quantile_2d"]}
{"id": "C60", "title": "Zero or negative anomalies are never extreme with approximate thresholds", "statement": "With approximate percentiles every threshold is missing or at least precision, so an anomaly <= 0 is never flagged, and land (missing) cells are never flagged.", "quantifier": "every sample, percentile and histogram", "why_tests_cant": "all samples, including constant (sea-ice) series", "anchors": ["marEx/detect.py:_compute_histogram_quantile_1d", "marEx/detect.py:_compute_histogram_quantile_2d", "marEx/detect.py:_identify_extremes_hobday"]}
{"id": "C61", "title": "A higher percentile never yields more extremes", "statement": "For the same data, raising threshold_percentile never turns a non-extreme value into an extreme one (approximate Hobday thresholds are monotone in the percentile).", "quantifier": "every histogram and pair of percentiles", "why_tests_cant": "relation between two runs over all inputs", "anchors": ["marEx/detect.py:_rolling_histogram_quantile"]}
{"id": "C62", "title": "Zarr checkpointing of intermediates is transparent", "statement": "checkpoint_to_zarr returns data equal to its argument whether or not the write succeeds, for every kind of failure; chunk normalisation covers the whole time axis.", "quantifier": "every failure mode and chunk tuple", "why_tests_cant": "failure injection over all control paths", "anchors": ["marEx/helper.py:checkpoint_to_zarr"]}
{"id": "C63", "title": "Quiet wins over verbose and explicit arguments win over the environment", "statement": "After configure_logging the mode is quiet iff quiet was requested (argument, else environment), else verbose iff requested, else normal; an explicit level is always honoured.", "quantifier": "every argument/environment combination and call history", "why_tests_cant": "history and combination space", "anchors": ["marEx/logging_config.py:configure_logging"]}
{"id": "C64", "title": "Missing dependencies are reported before use", "statement": "require_dependencies raises ImportError exactly when some requested dependency is unavailable, and names it.", "quantifier": "every set of installed packages and requested names", "why_tests_cant": "environments vary", "anchors": ["marEx/_dependencies.py:DependencyTracker.require_dependencies", "marEx/_dependencies.py:DependencyTracker._check_all_dependencies"]}
{"id": "C65", "title": "Error messages carry every supplied piece of information", "statement": "A MarExError's text contains the message, details, each context item, each suggestion and the error code, in that order; wrapping an exception keeps it as the cause and picks the mapped class.", "quantifier": "every message, detail, suggestion list and context", "why_tests_cant": "all strings", "anchors": ["marEx/exceptions.py:MarExError._format_error_message", "marEx/exceptions.py:wrap_exception"]}
{"id": "C66", "title": "Global grid specification for plots is last-write-wins and validated", "statement": "plotX uses the most recent valid specify_grid; an invalid grid_type raises ConfigurationError and leaves the previous specification in force.", "quantifier": "every call history", "why_tests_cant": "history property", "anchors": ["marEx/plotX/__init__.py:specify_grid", "marEx/plotX/__init__.py:PlotXAccessor.__call__"]}
{"id": "C67", "title": "Local clusters never oversubscribe logical cores", "statement": "start_local_cluster never starts more total threads than logical cores.", "quantifier": "every request and machine", "why_tests_cant": "all core counts", "anchors": ["marEx/helper.py:start_local_cluster"]}
{"id": "C68", "title": "Filling a filled field changes nothing", "statement": "Applying the spatial fill with the same radius to an already filled field returns it unchanged, on grids and on meshes.", "quantifier": "every binary field and radius", "why_tests_cant": "idempotence over all fields", "anchors": ["marEx/track.py:tracker.fill_holes"]}
{"id": "C69", "title": "Solid events survive filling; marks stay near extremes", "statement": "Filling never removes the cells of an event region that is a union of radius-R discs away from the domain edge, and never marks a cell farther than R from an extreme cell.", "quantifier": "every binary field and radius", "why_tests_cant": "all shapes of events", "anchors": ["marEx/track.py:tracker.fill_holes"]}
{"id": "C70", "title": "Regional domain edges do not erode events", "statement": "In regional mode an event touching the domain edge is not removed by the spatial fill because of the edge.", "quantifier": "every regional field and radius", "why_tests_cant": "all fields", "anchors": ["marEx/track.py:tracker.fill_holes"]}
{"id": "C71", "title": "Without merging, events are connected sets in space and time", "statement": "With allow_merging=False on a structured grid two extreme cells get the same event ID exactly when joined by a chain of extreme cells adjacent in space and/or consecutive in time; IDs are 1..N_events and background is 0.", "quantifier": "every field and grid size", "why_tests_cant": "all fields and chains", "anchors": ["marEx/track.py:tracker.run_tracking", "marEx/track.py:tracker.identify_objects"]}
{"id": "C72", "title": "The object table always describes the fields", "statement": "After splitting and merging, the object properties table has exactly one row per object ID that occurs in the ID field, with the area and centroid of its cells at its time.", "quantifier": "every field, threshold, chunking and partitioning", "why_tests_cant": "the table is patched incrementally in several places; only an invariant covers all histories", "anchors": ["marEx/track.py:tracker.split_and_merge_objects", "marEx/track.py:tracker.consolidate_object_ids"]}
{"id": "C73", "title": "A merge is recorded exactly for objects with two overlapping parents", "statement": "In every round the objects divided are exactly those with at least two parents whose overlap reaches overlap_threshold, and the recorded parents and areas are all of those parents.", "quantifier": "every pair of fields, table and threshold", "why_tests_cant": "all geometries", "anchors": ["marEx/track.py:tracker.split_and_merge_objects"]}
{"id": "C74", "title": "After a time step is processed no object has two parents", "statement": "When the merge loop of a time step stops, no object of that step has two parents above the overlap threshold, unless the round limit was hit after at least ten merges.", "quantifier": "every field pair and number of rounds", "why_tests_cant": "fixpoint property over unbounded rounds", "anchors": ["marEx/track.py:tracker.split_and_merge_objects"]}
{"id": "C75", "title": "Events have no gaps in time", "statement": "Every event is present at each time step between its time_start and its time_end, with and without merging.", "quantifier": "every data set, threshold, chunking and partitioning", "why_tests_cant": "follows from the chain structure of all histories", "anchors": ["marEx/track.py:tracker.run_tracking", "marEx/track.py:tracker.cluster_rename_objects_and_props"]}
{"id": "C76", "title": "Centroids stay on the grid", "statement": "The pixel centroid of every non-empty object or event lies inside the grid: row between 0 and ny-1, column in [0, nx).", "quantifier": "every shape, grid size, boundary mode and positive cell areas", "why_tests_cant": "all shapes and sizes", "anchors": ["marEx/track.py:tracker.calculate_centroid", "marEx/track.py:tracker.cluster_rename_objects_and_props"]}
{"id": "C77", "title": "Event centroid latitudes lie within the event", "statement": "Whenever an event is present its centroid latitude lies between the smallest and largest latitude of the rows it spans.", "quantifier": "every field, cell areas and latitude axis", "why_tests_cant": "all shapes and axes", "anchors": ["marEx/track.py:tracker.cluster_rename_objects_and_props"]}
{"id": "C78", "title": "Event centroid longitudes are the longitudes of the pixel centroids", "statement": "With evenly spaced longitudes the reported centroid longitude is the first longitude plus spacing times the pixel centroid (modulo a full turn), also across the seam.", "quantifier": "every field, cell areas and spacing", "why_tests_cant": "continuous position relative to the seam", "anchors": ["marEx/track.py:tracker.cluster_rename_objects_and_props"]}
{"id": "C79", "title": "Parallel merging only divides objects", "statement": "On unstructured grids the iterative merge, including its on-disk update, changes a cell's ID only to a newly issued one, keeps the footprint of every time step, and never joins cells of different objects of a time step.", "quantifier": "every mesh, series, chunk length, threshold and iteration history starting without a scratch store", "why_tests_cant": "the update goes through temporary IDs, a renumbering and a store written block by block", "anchors": ["marEx/track.py:tracker.split_and_merge_objects_parallel"]}
{"id": "C80", "title": "Merges recorded by the parallel algorithm are sound", "statement": "Each recorded merge is at a time step after the first, has two to ten distinct parents, as many distinct children as parents, one overlap area per parent, and all children but the first are newly issued IDs; its parents are objects of the step before.", "quantifier": "every mesh, series, chunk length, threshold and iteration history", "why_tests_cant": "needs an invariant over the per-step buffers and the renumbering", "anchors": ["marEx/track.py:tracker.split_and_merge_objects_parallel"]}
{"id": "C81", "title": "The time index of merging objects can be computed for every series", "statement": "compute_id_time_dict finds the time index of merging objects whatever the number of time steps and objects.", "quantifier": "every series", "why_tests_cant": "the pad depends on the ratio of objects to time steps", "anchors": ["marEx/track.py:tracker.compute_id_time_dict"]}
{"id": "C82", "title": "A whole run returns IDs on ocean cells, numbered without gaps", "statement": "Whatever the data, the ID field returned by run on a structured grid has the shape of the data, is non-zero only at ocean cells (after filling and filtering), and uses exactly the IDs 1 to N_events_final, with and without merging.", "quantifier": "every data set, mask, filling radius and gap length, size rule, boundary mode, threshold and chunking", "why_tests_cant": "composition of all phases", "anchors": ["marEx/track.py:tracker.run", "marEx/track.py:tracker.run_preprocess", "marEx/track.py:tracker.run_tracking"]}
{"id": "C83", "title": "Every record with an object can be tracked", "statement": "If the filled data hold at least one object of the required size, run tracks it and returns.", "quantifier": "every data set", "why_tests_cant": "depends on the number of objects left after filling", "anchors": ["marEx/track.py:tracker.run", "marEx/track.py:tracker.run_preprocess", "marEx/track.py:tracker.filter_small_objects"]}
{"id": "C84", "title": "preprocessing_steps names the spatial window that was used", "statement": "The preprocessing_steps attribute names the spatial window used for the thresholds.", "quantifier": "every parameter combination", "why_tests_cant": "the default is chosen inside another function", "anchors": ["marEx/detect.py:_get_preprocessing_steps", "marEx/detect.py:identify_extremes"]}
{"id": "C85", "title": "preprocess_data computes only on fully validated input", "statement": "Extremes are computed only if all named dimensions and coordinates exist, the array is dask-backed, every ocean series is gap-free, methods and parameters are documented ones and the series spans the baseline window; the times kept and the computation run are then the intended ones.", "quantifier": "every input and parameter combination", "why_tests_cant": "composition of all checks in order", "anchors": ["marEx/detect.py:preprocess_data", "marEx/detect.py:compute_normalised_anomaly", "marEx/detect.py:identify_extremes"]}
{"id": "C86", "title": "Baselines remove seasonal cycles and constant offsets entirely", "statement": "Adding a seasonal cycle (any function of the day of year) to the data leaves fixed_baseline anomalies unchanged; adding a constant leaves shifting_baseline anomalies unchanged, for every baseline and smoothing window.", "quantifier": "every series, calendar, cycle and constant", "why_tests_cant": "relates two runs over all inputs", "anchors": ["marEx/detect.py:_compute_anomaly_fixed_baseline", "marEx/detect.py:_compute_anomaly_shifting_baseline"]}
{"id": "C87", "title": "Detrending loses no data", "statement": "Detrended anomalies are missing exactly where the data are missing.", "quantifier": "every series with gaps", "why_tests_cant": "all gap patterns", "anchors": ["marEx/detect.py:_compute_anomaly_detrended"]}
{"id": "C88", "title": "Decimal years follow the calendar", "statement": "The decimal year used as the time axis of the trend orders any two days as the Gregorian calendar does, never coincides for different days, advances by exactly one per year and by one day's share across New Year.", "quantifier": "every pair of dates, leap years and centuries included", "why_tests_cant": "all dates", "anchors": ["marEx/detect.py:add_decimal_year"]}
{"id": "C89", "title": "detrend_fixed_baseline removes the trend and the seasonal cycle", "statement": "Anomalies of detrend_fixed_baseline sum to zero on each day of year and have no polynomial trend of the requested orders.", "quantifier": "every series and calendar", "why_tests_cant": "algebraic law over all series", "anchors": ["marEx/detect.py:_compute_anomaly_detrend_fixed_baseline"]}
{"id": "C90", "title": "std_normalise divides by the variability of a 30-day window around each day", "statement": "STD has exactly one entry per day of year; the square of the entry of day d is the mean of the daily variances over days d-15..d+14, wrapping around the year.", "quantifier": "every series and calendar", "why_tests_cant": "wrap-around at both ends, calendars without some day", "anchors": ["marEx/detect.py:_compute_anomaly_detrended"]}
{"id": "C91", "title": "Exact percentiles flag the requested share of the data", "statement": "With exact percentiles, of the n available values of a cell at least (1-q)(n-1) reach the global threshold and fewer than (1-q)(n-1)+1 exceed it; the threshold is missing only if all values are.", "quantifier": "every sample, with ties and gaps, and every percentile", "why_tests_cant": "order statistics over all samples", "anchors": ["marEx/detect.py:_identify_extremes_constant"]}
{"id": "C92", "title": "Exact and approximate day-of-year percentiles use the same sample", "statement": "The exact and the approximate Hobday threshold of a day are percentiles of the same multiset of values: those within window_days_hobday//2 days of that day.", "quantifier": "every daily record and day", "why_tests_cant": "all calendars and year ends", "anchors": ["marEx/detect.py:_identify_extremes_hobday", "marEx/detect.py:_rolling_histogram_quantile"]}
{"id": "C93", "title": "A logging mode stays in force until the next configuration", "statement": "After configure_logging, set_quiet_mode, set_verbose_mode or set_normal_mode, asking for loggers changes neither mode, level nor handlers.", "quantifier": "every call history and environment", "why_tests_cant": "history property", "anchors": ["marEx/logging_config.py:get_logger", "marEx/logging_config.py:configure_logging"]}
{"id": "C94", "title": "SLURM requests say what was asked for", "statement": "start_distributed_cluster requests a walltime hh:mm:00 of exactly runtime minutes, the given number of workers and the node memory of the matching size; other memory sizes are refused.", "quantifier": "every runtime, worker count and memory", "why_tests_cant": "all runtimes", "anchors": ["marEx/helper.py:start_distributed_cluster"]}
{"id": "C95", "title": "plotX accepts exactly the arrays its mapping fits", "statement": "da.plotX(dimensions, coordinates) yields a plotter exactly when every mapped spatial dimension and coordinate exists; time is optional; the error lists exactly what is missing.", "quantifier": "every array, mapping and grid specification", "why_tests_cant": "all mappings", "anchors": ["marEx/plotX/base.py:_validate_dimensions_exist", "marEx/plotX/base.py:_validate_coordinates_exist", "marEx/plotX/__init__.py:PlotXAccessor.__call__"]}
{"id": "C96", "title": "multi_plot draws every panel once", "statement": "multi_plot succeeds wherever single plots do; panel i is drawn in its own cell, in row-major order, and the figure has no empty row.", "quantifier": "every array, panel count and col_wrap", "why_tests_cant": "all counts and mappings", "anchors": ["marEx/plotX/base.py:PlotterBase.multi_plot"]}
{"id": "C97", "title": "Plots on meshes use the grid file on disk", "statement": "A plot on an unstructured grid uses the triangulation that the grid file holds at that moment.", "quantifier": "every history of writes, plots and clear_cache", "why_tests_cant": "history property", "anchors": ["marEx/plotX/unstructured.py:_load_triangulation", "marEx/plotX/unstructured.py:clear_cache"]}
{"id": "C98", "title": "Global fields are closed at the date line, others are left alone", "statement": "wrap_lon appends exactly the first column at its longitude + 360 when the grid goes once round the globe, so that the gap closes by one spacing, and otherwise changes nothing.", "quantifier": "every longitude axis", "why_tests_cant": "all spacings, directions and offsets", "anchors": ["marEx/plotX/gridded.py:GriddedPlotter.wrap_lon"]}
{"id": "C99", "title": "Automatic colour limits are in order and cover the data", "statement": "clim_robust returns lower <= upper; symmetric limits are opposite; no more than the requested share of values, up to two, falls outside.", "quantifier": "every sample and percentile pair", "why_tests_cant": "order statistics over all samples", "anchors": ["marEx/plotX/base.py:PlotterBase.clim_robust"]}
{"id": "C100", "title": "Every event has a colour of its own", "statement": "With plot_IDs, two events never share an entry of the colour map, every entry used exists, and maps that are too small are refused.", "quantifier": "every number of events and colour map", "why_tests_cant": "all counts", "anchors": ["marEx/plotX/base.py:PlotterBase.setup_id_plot_params"]}
{"id": "C101", "title": "Animations show every time step once and in order", "statement": "animate makes one frame per time step, whatever the number of batches, under distinct names listed in time order and readable by the ffmpeg pattern; frame sizes are even; any array that can be plotted can be animated.", "quantifier": "every number of time steps and mapping", "why_tests_cant": "all counts, batch boundaries and names", "anchors": ["marEx/plotX/base.py:PlotterBase.animate", "marEx/plotX/base.py:make_frame"]}
{"id": "C102", "title": "Animations are written to the named file", "statement": "animate writes plot_dir/file_name.mp4, or plot_dir/movie_<name>.mp4 without a file name, and returns that path.", "quantifier": "every name", "why_tests_cant": "all names", "anchors": ["marEx/plotX/base.py:PlotterBase.animate"]}
{"id": "C103", "title": "Mesh events cover exactly the extremes and are chains of overlapping objects", "statement": "On a mesh, run_tracking gives an event ID to exactly the extreme ocean cells; IDs are 1..N_events; two cells share an event exactly when their objects (connected objects, divided where they merged) are joined by overlaps of at least the threshold between consecutive times.", "quantifier": "every mesh, mask, areas, data, threshold, chunking, set order", "why_tests_cant": "end-to-end property of an iterative parallel algorithm over all meshes and histories", "anchors": ["marEx/track.py:run_tracking", "marEx/track.py:track_objects", "marEx/track.py:split_and_merge_objects_parallel", "marEx/track.py:cluster_rename_objects_and_props"]}
{"id": "C104", "title": "Mesh events have no gaps in time and their areas add up", "statement": "On a mesh, an event is present at every time from time_start to time_end and at no other; its area is the sum of its cells; areas of a time step add up to the extreme ocean area.", "quantifier": "every mesh and history", "why_tests_cant": "all histories of merging and splitting", "anchors": ["marEx/track.py:track_objects", "marEx/track.py:cluster_rename_objects_and_props"]}
{"id": "C105", "title": "Tracking on a mesh succeeds whenever there are extremes", "statement": "run_tracking on a mesh returns for every preprocessed field with at least one extreme ocean cell.", "quantifier": "every mesh and field", "why_tests_cant": "failures need coincidences of IDs between time steps", "anchors": ["marEx/track.py:track_objects", "marEx/track.py:split_and_merge_objects_parallel", "marEx/track.py:calculate_object_properties"]}
{"id": "C106", "title": "Without merging objects, mesh events are chains of connected objects", "statement": "If no connected object overlaps two objects of the time before by the threshold, tracking on a mesh succeeds, records no merge and its events are exactly the chains of overlapping connected objects.", "quantifier": "every mesh, field, threshold and chunking", "why_tests_cant": "all fields and chunk sizes", "anchors": ["marEx/track.py:track_objects", "marEx/track.py:split_and_merge_objects_parallel"]}
{"id": "C107", "title": "The time chunk size of mesh tracking is a free choice", "statement": "Whether tracking on a mesh succeeds does not depend on how the time steps divide into chunks.", "quantifier": "every number of time steps and chunk size", "why_tests_cant": "all remainders", "anchors": ["marEx/track.py:split_and_merge_objects_parallel", "marEx/track.py:process_chunk"]}
{"id": "C108", "title": "A run on a mesh returns the large objects of the filled data", "statement": "When tracker.run returns on a mesh, with or without saving checkpoints, a cell has an event ID exactly when after filling it is an ocean cell of a connected object with more cells than the reported area_threshold; IDs are 1..N_events_final and events have no gaps in time.", "quantifier": "every mesh, data, filling radius, filter rule, checkpoint strategy", "why_tests_cant": "composition of all phases over all inputs", "anchors": ["marEx/track.py:run", "marEx/track.py:run_preprocess", "marEx/track.py:run_tracking"]}
{"id": "C109", "title": "The centroid on a mesh is the best single point for the cells", "statement": "On a mesh the reported centroid has latitude in [-90,90] and longitude in (-180,180] and minimises, over all points of the sphere, the area-weighted sum of squared distances to the cells; cells within an arc of less than 90 degrees of a point have their centroid within that arc of it, so cells poleward of a latitude have their centroid poleward of it.", "quantifier": "every set of cells, areas and positions", "why_tests_cant": "real-valued geometry over all positions", "anchors": ["marEx/track.py:calculate_object_properties", "marEx/track.py:cluster_rename_objects_and_props"]}
{"id": "C110", "title": "Centroids on a mesh do not depend on conventions and move with the object", "statement": "The centroid does not change with the order of the cells, the unit of area or the turn in which longitudes are given (-180..180 or 0..360, also mixed); moving all cells by d degrees of longitude moves the centroid by d.", "quantifier": "every set of cells, every d", "why_tests_cant": "real-valued geometry over all positions", "anchors": ["marEx/track.py:calculate_object_properties", "marEx/track.py:cluster_rename_objects_and_props"]}
{"id": "C111", "title": "The centroid of one cell is the cell", "statement": "Cells that all lie in one place have their centroid there, with the same coordinates unless the place is a pole.", "quantifier": "every place and areas", "why_tests_cant": "real-valued geometry over all positions", "anchors": ["marEx/track.py:calculate_object_properties"]}
{"id": "C112", "title": "Centroid partitioning on a mesh uses the true distance on the sphere and only real parents", "statement": "The distance used is the great-circle distance for every pair of points; every cell of a divided object goes to the parent whose centroid is nearest on the sphere, the first of equals; cells outside the child get 0.", "quantifier": "every child, parents (at most ten) and positions", "why_tests_cant": "all positions on the sphere, including those near the placeholder of unused rows", "anchors": ["marEx/track.py:partition_centroid_unstructured", "marEx/track.py:partition_nn_unstructured_optimised", "marEx/track.py:split_and_merge_objects_parallel"]}
{"id": "C113", "title": "The object table of a mesh has one entry per object and step, with its area", "statement": "calculate_object_properties on a mesh never overflows its ID buffer; it has one entry for every ID of every time step in order, with the summed area and centroid of the cells with that ID; the areas of a step add up to the area covered.", "quantifier": "every field, number of steps and cell areas", "why_tests_cant": "buffer size depends on the largest ID and the number of steps", "anchors": ["marEx/track.py:calculate_object_properties", "marEx/track.py:object_properties_chunk"]}
{"id": "C114", "title": "Event area and centroid on a mesh are those of its cells at that time", "statement": "For every time and event, area and centroid are those of exactly the cells with the event's ID, and NaN exactly when the event is not present or has no cell.", "quantifier": "every field and presence table", "why_tests_cant": "all fields", "anchors": ["marEx/track.py:cluster_rename_objects_and_props", "marEx/track.py:calculate_area_centroid_for_slice"]}
{"id": "C115", "title": "Masked cells are never flagged as extreme", "statement": "In the dataset returned by preprocess_data, a cell whose mask is False has extreme_events False at every time step, for every combination of methods.", "quantifier": "every input, calendar and combination of methods", "why_tests_cant": "depends on where and when values are missing", "anchors": ["marEx/detect.py:preprocess_data", "marEx/detect.py:identify_extremes"]}
{"id": "C116", "title": "Ocean cells have anomalies and thresholds everywhere", "statement": "For every accepted input, a cell inside the mask has an anomaly at every returned time step and a threshold for every day of year that occurs.", "quantifier": "every accepted input and combination of methods", "why_tests_cant": "depends on calendars, windows and smoothing", "anchors": ["marEx/detect.py:preprocess_data", "marEx/detect.py:compute_normalised_anomaly", "marEx/detect.py:identify_extremes"]}
{"id": "C117", "title": "Signals that the baseline removes do not change the extremes", "statement": "Adding a signal of the kind the anomaly method removes (any offset per cell; with the fixed baseline any annual cycle; with detrending any trend of the fitted orders and harmonics) to the input leaves masks, anomalies, thresholds and extreme_events of preprocess_data unchanged; Kelvin and Celsius give the same events.", "quantifier": "every input, calendar, method and signal", "why_tests_cant": "relates two runs for all inputs", "anchors": ["marEx/detect.py:preprocess_data", "marEx/detect.py:compute_normalised_anomaly"]}
{"id": "C118", "title": "Results at a cell depend only on its neighbourhood", "statement": "Two accepted inputs that agree on a cell (with approximate day-of-year percentiles: on the square window around it, columns wrapping) give the same anomalies, thresholds, mask and extremes there.", "quantifier": "every pair of inputs and cell", "why_tests_cant": "relates two runs for all inputs", "anchors": ["marEx/detect.py:preprocess_data", "marEx/detect.py:_compute_histogram_quantile_2d"]}
{"id": "C119", "title": "Exact global percentiles flag the requested share of every ocean cell", "statement": "With method_extreme global_extreme and exact percentiles, of the n steps of an ocean cell at least (1-q)(n-1) are flagged and fewer than (1-q)(n-1)+1 lie strictly above the threshold.", "quantifier": "every input, percentile and cell", "why_tests_cant": "all distributions of values including ties", "anchors": ["marEx/detect.py:preprocess_data", "marEx/detect.py:_identify_extremes_constant"]}
{"id": "C120", "title": "Documented arguments and valid data give a result", "statement": "preprocess_data succeeds whenever its checks pass.", "quantifier": "every input, grid size and arguments", "why_tests_cant": "fails only for particular sizes and windows", "anchors": ["marEx/detect.py:preprocess_data", "marEx/detect.py:_identify_extremes_constant", "marEx/detect.py:_rolling_histogram_quantile"]}
{"id": "C121", "title": "The result has exactly the time steps after the baseline window", "statement": "The dataset has the time steps of the input, with the shifting baseline those of the years from the first plus the window on, in order; all variables have that length and it is not empty.", "quantifier": "every input and calendar", "why_tests_cant": "all calendars and windows", "anchors": ["marEx/detect.py:preprocess_data"]}
{"id": "C122", "title": "Animation frames mark the centroids of the objects in the frame", "statement": "With centroids given, each frame of animate marks one point, at longitude and latitude, for every object present in the frame that has a centroid at that time, and no other point; the objects are those of object_ids when given, else of the animated ID field.", "quantifier": "every field, ID field and centroid table", "why_tests_cant": "all fields and tables; errors are silently swallowed", "anchors": ["marEx/plotX/base.py:make_frame", "marEx/plotX/base.py:PlotterBase.animate"]}
{"id": "C123", "title": "Runs on structured grids return the large objects, whole", "statement": "When run returns on a structured grid, a cell has an event ID exactly when after filling it belongs to a connected object with at least the reported threshold of cells; the IDs are 1..N_events_final; no event has a gap in time; without merging two cells share an ID exactly when connected in space and time through cells of events.", "quantifier": "every grid, mask, field, filling and filtering setting, both tracking modes", "why_tests_cant": "composition of all phases on all inputs", "anchors": ["marEx/track.py:tracker.run", "marEx/track.py:tracker.run_preprocess", "marEx/track.py:tracker.run_tracking"]}
{"id": "C124", "title": "Timing and progress bars do not change what they surround", "statement": "A block under log_timing or progress_bar runs exactly once and its result or exception is the caller's, in every logging mode; the last record tells whether it completed or failed; an opened progress bar is closed on every exit and none is opened in quiet mode.", "quantifier": "every block, clock, mode and history of records", "why_tests_cant": "durations and modes are environment dependent", "anchors": ["marEx/logging_config.py:log_timing", "marEx/logging_config.py:progress_bar", "marEx/logging_config.py:create_progress_bar"]}
{"id": "C125", "title": "Decorated functions behave like the functions", "statement": "A function decorated with log_function_call is called exactly once per call, with its result or exception passed on; calls are logged to the logger of the function's own module with a bounded argument summary.", "quantifier": "every function, argument list and use of the decorator", "why_tests_cant": "arbitrary arguments and decorator reuse", "anchors": ["marEx/logging_config.py:log_function_call"]}
{"id": "C126", "title": "log_progress reports each multiple of the frequency and nothing else", "statement": "Outside quiet mode log_progress never raises and logs exactly when current is a multiple of frequency percent of total or equals total; in quiet mode it logs nothing.", "quantifier": "every current, total and frequency", "why_tests_cant": "double rounding of percentages over all pairs of integers", "anchors": ["marEx/logging_config.py:log_progress"]}
{"id": "C127", "title": "log_dask_info describes arrays and datasets and is harmless", "statement": "log_dask_info never raises, only adds debug records, and describes shape and chunks of every dask-backed object it is given.", "quantifier": "every object", "why_tests_cant": "all objects, silent exception handler", "anchors": ["marEx/logging_config.py:log_dask_info"]}
{"id": "C128", "title": "Extremes do not depend on the unit of the data", "statement": "Converting the input to other units (a positive factor and an offset per cell) leaves calendar, mask and extreme_events of preprocess_data unchanged and multiplies anomalies and thresholds by the factor.", "quantifier": "every input, calendar, combination of methods, factors and offsets", "why_tests_cant": "relates two runs for all inputs", "anchors": ["marEx/detect.py:preprocess_data", "marEx/detect.py:compute_normalised_anomaly", "marEx/detect.py:identify_extremes"]}
{"id": "C129", "title": "Events do not depend on units, offsets and removed signals", "statement": "preprocess_data followed by tracker(ds.extreme_events, ds.mask).run() gives the same events, merges and statistics after a change of units or after adding a signal that the anomaly method removes.", "quantifier": "every input, method, tracking options and signal", "why_tests_cant": "relates two whole pipelines for all inputs", "anchors": ["marEx/detect.py:preprocess_data", "marEx/track.py:tracker.run"]}
{"id": "C130", "title": "Events come from extremes in cells with data", "statement": "In preprocess_data followed by tracker.run on a structured grid, a cell of an event has data at the first time step, and within T_fill time steps and R_fill + R_fill/2 cells of it there is a cell whose anomaly reaches its threshold of the day.", "quantifier": "every input, method and tracking options", "why_tests_cant": "composition of detection, filling, filtering and tracking on all inputs", "anchors": ["marEx/detect.py:preprocess_data", "marEx/track.py:tracker.run"]}
{"id": "C131", "title": "Without filling, events are exactly the large connected exceedances", "statement": "With R_fill = T_fill = 0 a cell is in an event exactly when it has data at the first step, its anomaly reaches the threshold of the day, and the connected object of such cells at its time step has at least the reported number of cells.", "quantifier": "every input, method and tracking options", "why_tests_cant": "composition of detection, filtering and tracking on all inputs", "anchors": ["marEx/detect.py:preprocess_data", "marEx/track.py:tracker.run"]}
{"id": "C132", "title": "Turning the globe turns the events", "statement": "On a global grid, listing the longitudes from another starting column (data and mask alike) gives the same statistics and the same events, moved along with the columns.", "quantifier": "every grid, mask, field, shift and tracking options", "why_tests_cant": "relates two whole runs for all inputs", "anchors": ["marEx/track.py:tracker.run", "marEx/track.py:tracker.fill_holes", "marEx/track.py:tracker.filter_small_objects"]}
{"id": "C133", "title": "Quiet time steps before and after a record only shift the events", "statement": "Prepending a and appending b time steps without extremes gives the same statistics and the same events, a steps later, with the same merges; the longer run returns whenever the shorter one does.", "quantifier": "every grid, mask, field, numbers of steps and tracking options", "why_tests_cant": "relates two whole runs for all inputs", "anchors": ["marEx/track.py:tracker.run", "marEx/track.py:tracker.fill_time_gaps"]}
{"id": "C134", "title": "The direction of the axes does not matter", "statement": "Reversing latitude, longitude or both, of data and mask, gives the same statistics and the same events, reversed.", "quantifier": "every grid, mask, field, filling and filtering setting", "why_tests_cant": "relates two whole runs for all inputs", "anchors": ["marEx/track.py:tracker.run", "marEx/track.py:tracker.fill_holes", "marEx/track.py:tracker.filter_small_objects"]}
{"id": "C135", "title": "Later data do not change earlier events", "statement": "Appending time steps to a record leaves the event cells of the earlier steps as they were, and cells of one event stay in one event; with merging and splitting, cells of different events also stay in different ones.", "quantifier": "every grid, mask, field, continuation and tracking options", "why_tests_cant": "relates two whole runs for all inputs and continuations", "anchors": ["marEx/track.py:tracker.run", "marEx/track.py:tracker.fill_time_gaps", "marEx/track.py:tracker.filter_small_objects"]}
{"id": "C136", "title": "Cell areas from the grid resolution are areas on the sphere", "statement": "With grid_resolution each cell gets the area of its latitude band on the sphere of radius 6378 km, and the areas of a global grid add up to the surface of the sphere.", "quantifier": "every resolution and latitude", "why_tests_cant": "real-valued identity for all resolutions", "anchors": ["marEx/track.py:tracker.__init__"]}
{"id": "C137", "title": "Inputs may be chunked in space in any way", "statement": "Whatever the chunks of the inputs, the constructor brings data and mask to one chunk in each spatial dimension without touching sizes and time chunks, warns once for each array and dimension that was split, and tracking is not stopped by chunks.", "quantifier": "every chunking of all inputs", "why_tests_cant": "all combinations of chunks of six arrays", "anchors": ["marEx/track.py:tracker._validate_spatial_chunking", "marEx/track.py:tracker._validate_unstructured_chunking", "marEx/track.py:tracker._build_sparse_dilation_matrix", "marEx/track.py:tracker.identify_objects"]}
{"id": "C138", "title": "Standardised anomalies are anomalies over the deviation of the day", "statement": "With std_normalise=True dat_stn at a step is the anomaly divided by STD of that day of year, STD being the root of the mean of the 30 daily variances around the day, missing where STD is at most 1e-10; extreme_events_stn flags exactly the steps whose dat_stn reaches thresholds_stn, and no cell without data at the first step.", "quantifier": "every record, calendar, mask and extreme method", "why_tests_cant": "arbitrary records and calendars", "anchors": ["marEx/detect.py:_compute_anomaly_detrended", "marEx/detect.py:preprocess_data"]}
{"id": "C139", "title": "Standardising works whenever detection works", "statement": "std_normalise=True succeeds on every record on which preprocess_data succeeds without it, changes nothing in the plain variables, and is ignored by the other anomaly methods.", "quantifier": "every record, calendar and method", "why_tests_cant": "all calendars; relates runs with and without the option", "anchors": ["marEx/detect.py:_compute_anomaly_detrended", "marEx/detect.py:preprocess_data"]}
{"id": "C140", "title": "Standardised anomalies do not depend on units", "statement": "Converting the input to other units (a positive factor and an offset per cell) multiplies STD by the factor and leaves standardised anomalies, thresholds and extremes as they were.", "quantifier": "every record, calendar, factor and extreme method", "why_tests_cant": "relates two runs for all inputs", "anchors": ["marEx/detect.py:_compute_anomaly_detrended", "marEx/detect.py:identify_extremes", "marEx/detect.py:preprocess_data"]}
{"id": "C141", "title": "Where the deviation is the same all year, standardising changes no extreme", "statement": "With exact percentiles a cell whose STD is the same positive number on all days has the same extremes with and without standardisation; with one-day windows every cell has.", "quantifier": "every record, calendar and percentile", "why_tests_cant": "relates two families of thresholds for all inputs", "anchors": ["marEx/detect.py:preprocess_data", "marEx/detect.py:identify_extremes"]}
{"id": "C142", "title": "Thresholds of a run are percentiles of its own anomalies", "statement": "In preprocess_data the threshold of a cell and day is the requested percentile of the returned anomalies of that cell (and, approximately with hobday_extreme on grids, of the cells around it) on the days of the window: exactly for exact percentiles, within 1.5 bins for approximate ones.", "quantifier": "every record, calendar, anomaly method, window, percentile and precision", "why_tests_cant": "composition of anomalies, trimming, windows and thresholds on all inputs", "anchors": ["marEx/detect.py:preprocess_data", "marEx/detect.py:identify_extremes", "marEx/detect.py:_identify_extremes_hobday", "marEx/detect.py:_identify_extremes_constant"]}
{"id": "C143", "title": "Filling marks only cells near extremes", "statement": "Every ocean cell that hole and gap filling mark is within 1.5 R_fill cells and T_fill time steps of an extreme cell of the input; in particular a record without extremes stays empty.", "quantifier": "every binary record, mask, mesh or grid, R_fill and T_fill", "why_tests_cant": "locality of two filling passes and a temporal closing on all fields and coastlines", "anchors": ["marEx/track.py:tracker.fill_holes", "marEx/track.py:tracker.fill_time_gaps", "marEx/track.py:tracker.run_preprocess"]}
{"id": "C144", "title": "The attributes of the returned dataset determine how it was made", "statement": "preprocess_data records every parameter it uses under its own name, those of a method exactly when that method is used and detrending orders as used ([1] by default); two runs on the same data whose attributes are equal return the same dataset.", "quantifier": "every pair of calls", "why_tests_cant": "pairs of parameter combinations, including parameters recorded only inside a sentence", "anchors": ["marEx/detect.py:preprocess_data", "marEx/detect.py:_get_preprocessing_steps"]}
{"id": "C145", "title": "The returned dataset can be tracked as it is chunked", "statement": "The dataset returned by preprocess_data has each spatial dimension in one chunk and time in chunks of the requested size (10 by default), so that tracker neither warns about its chunks nor rechunks it.", "quantifier": "every input chunking, dimension names and requested chunks", "why_tests_cant": "all chunkings and name mappings, across two modules", "anchors": ["marEx/detect.py:preprocess_data", "marEx/track.py:tracker._validate_spatial_chunking"]}
{"id": "C146", "title": "Every value is drawn at its own place", "statement": "A plot shows each value at the coordinates of its cell and nothing else (on global grids the first longitude once more, 360 degrees further); on meshes every pixel or triangle shows the value of a cell there.", "quantifier": "every array, order of dimensions, grid and grid files", "why_tests_cant": "all shapes and contents, including orders of dimensions nobody tried", "anchors": ["marEx/plotX/gridded.py:GriddedPlotter.plot", "marEx/plotX/unstructured.py:UnstructuredPlotter.plot", "marEx/plotX/unstructured.py:UnstructuredPlotter._interpolate_with_ckdtree", "marEx/plotX/unstructured.py:_load_triangulation"]}
{"id": "C147", "title": "One colour scale per figure", "statement": "All panels of multi_plot and all frames of animate share one colour scale, panel i shows step i under its title, and automatic limits leave out no more than the requested share of the values.", "quantifier": "every record and configuration", "why_tests_cant": "all step counts and values", "anchors": ["marEx/plotX/base.py:PlotterBase.multi_plot", "marEx/plotX/base.py:PlotterBase.animate", "marEx/plotX/base.py:PlotterBase._setup_common_params"]}
{"id": "C148", "title": "Frames show what single_plot shows", "statement": "Frame i of an animation equals the picture single_plot makes of step i with the same configuration.", "quantifier": "every record, grid and configuration", "why_tests_cant": "two separate drawing paths compared on all inputs", "anchors": ["marEx/plotX/base.py:make_frame", "marEx/plotX/base.py:PlotterBase.animate", "marEx/plotX/base.py:PlotterBase.single_plot"]}
{"id": "C149", "title": "IDs can be drawn with every documented colour map", "statement": "With plot_IDs and any colour map of enough colours, or none, the cells with an ID are drawn and no others, each ID in a colour of its own.", "quantifier": "every ID field and colour map", "why_tests_cant": "all counts and kinds of colour map", "anchors": ["marEx/plotX/base.py:PlotterBase._setup_common_params", "marEx/plotX/base.py:PlotterBase.setup_id_plot_params"]}
{"id": "C150", "title": "Dask's temporary directory exists while a client is in use", "statement": "As long as a client started by marEx (or the object returned by configure_dask) is kept, the temporary directory Dask is configured with exists.", "quantifier": "every sequence of starts, refused starts, closings and settings", "why_tests_cant": "histories of any length, including refused calls", "anchors": ["marEx/helper.py:configure_dask", "marEx/helper.py:start_local_cluster", "marEx/helper.py:start_distributed_cluster"]}
{"id": "C151", "title": "Starting a cluster keeps the user's Dask settings", "statement": "A Dask setting made by the user holds until they change it; settings passed to configure_dask win over marEx's defaults.", "quantifier": "every sequence of starts and settings and every key", "why_tests_cant": "histories of any length", "anchors": ["marEx/helper.py:configure_dask", "marEx/helper.py:start_local_cluster", "marEx/helper.py:start_distributed_cluster"]}
{"id": "C152", "title": "Connection information names the dashboard's port", "statement": "get_cluster_info returns the port of the dashboard, the host name without its domain and a local link with that port, for every dashboard link Dask can report.", "quantifier": "every host name and dashboard link", "why_tests_cant": "all link texts, including IPv6 hosts and proxies", "anchors": ["marEx/helper.py:get_cluster_info"]}
{"id": "C153", "title": "The reported statistics describe the run", "statement": "When run returns, N_objects_prefiltered is the number of connected objects after filling, N_objects_filtered that of the objects in the result, the total area that of the filled ocean cells, accepted_area_fraction the share of them in the result, and preprocessed_area_fraction the area of the input's extremes over that of the result.", "quantifier": "every data set, grid or mesh, filling and filtering setting, tracking mode", "why_tests_cant": "composition of filling, labelling, filtering, tracking and statistics on all inputs", "anchors": ["marEx/track.py:tracker.run", "marEx/track.py:tracker.run_preprocess", "marEx/track.py:tracker.run_stats_attributes", "marEx/track.py:tracker.filter_small_objects"]}
{"id": "C154", "title": "Allowing merging only divides events", "statement": "On a grid, if run with allow_merging=True returns, run with allow_merging=False on the same data returns too, with the same object statistics and the same event cells; every event of the former lies inside one event of the latter, so it reports at least as many events.", "quantifier": "every data set, grid, filling and filtering setting, overlap threshold, partitioning and time chunking", "why_tests_cant": "relates two different algorithms on all inputs and chunkings", "anchors": ["marEx/track.py:tracker.run", "marEx/track.py:tracker.run_tracking", "marEx/track.py:tracker.split_and_merge_objects", "marEx/track.py:tracker.consolidate_object_ids", "marEx/track.py:tracker.cluster_rename_objects_and_props"]}
{"id": "C155", "title": "A stricter area threshold only removes", "statement": "Raising area_filter_absolute or area_filter_quartile does not lower the reported threshold, leaves no event cell that was none before and puts no two cells into one event that were in different ones.", "quantifier": "every data set, grid and pair of thresholds of one kind", "why_tests_cant": "relates two runs on all inputs", "anchors": ["marEx/track.py:tracker.filter_small_objects", "marEx/track.py:tracker.run"]}
{"id": "C156", "title": "The numbers of the cells do not matter", "statement": "On a mesh, numbering the cells otherwise and listing each cell's neighbours in another order, with data, mask and areas numbered to match, gives the same statistics, the same number of events and, cell by cell, the same events.", "quantifier": "every mesh, data set, renumbering of its cells, filling, filtering and overlap setting", "why_tests_cant": "relates two runs on all inputs and all permutations", "anchors": ["marEx/track.py:tracker.run", "marEx/track.py:tracker.fill_holes", "marEx/track.py:tracker.fill_time_gaps", "marEx/track.py:tracker.filter_small_objects", "marEx/track.py:tracker.split_and_merge_objects_parallel", "marEx/track.py:partition_nn_unstructured_optimised"]}
{"id": "C157", "title": "A cut-out holding every extreme has the same events", "statement": "If all extreme cells lie in a rectangle of the grid, tracking the rectangle with regional_mode=True gives the events of tracking the whole grid (regional or global): the same statistics, the same event cells and, without merging, the same number of events and the same cells in one event.", "quantifier": "every grid, rectangle, data set, filling and filtering setting", "why_tests_cant": "relates two runs on grids of different sizes on all inputs", "anchors": ["marEx/track.py:tracker.run", "marEx/track.py:tracker.fill_holes", "marEx/track.py:tracker.fill_time_gaps", "marEx/track.py:tracker.identify_objects", "marEx/track.py:tracker.filter_small_objects", "marEx/track.py:regional_tracker"]}
{"id": "C158", "title": "Recorded merges are the overlaps", "statement": "On a mesh, each row of the merges dataset names a time after the first; its parent_IDs are exactly the objects of the time before, as divided when the merge was made, that share with the first child at least overlap_threshold of the smaller one's area, each once; overlap_areas holds the areas they share with it; unused places hold -1.", "quantifier": "every mesh, data set, overlap threshold, time chunking and set order", "why_tests_cant": "all merge histories and chunkings; divisions made while merging change the objects later merges see", "anchors": ["marEx/track.py:tracker.split_and_merge_objects_parallel", "marEx/track.py:tracker.run"]}
{"id": "C159", "title": "Read backwards, the events are the same", "statement": "The record read from its last time step to its first gives the same statistics and the same event cells, read backwards; without merging on a grid, and on a mesh, the same number of events and the same cells in one event.", "quantifier": "every grid or mesh, data set, filling and filtering setting, tracking mode, time chunking of either run", "why_tests_cant": "relates two runs on all inputs; filling in time and the labelling order depend on the direction in the code", "anchors": ["marEx/track.py:tracker.run", "marEx/track.py:tracker.fill_time_gaps", "marEx/track.py:tracker.identify_objects", "marEx/track.py:tracker.filter_small_objects"]}
{"id": "C160", "title": "More extremes, more event cells", "statement": "With area_filter_absolute, if every extreme cell of one record is extreme in another, every event cell of the first run is an event cell of the second; without merging, on grids, the cells of one event stay in one event.", "quantifier": "every grid or mesh, pair of records, R_fill, T_fill, area threshold, tracking mode", "why_tests_cant": "relates two runs on all inputs", "anchors": ["marEx/track.py:tracker.run", "marEx/track.py:tracker.fill_holes", "marEx/track.py:tracker.fill_time_gaps", "marEx/track.py:tracker.filter_small_objects"]}
{"id": "C161", "title": "A longer T_fill only adds event cells", "statement": "With area_filter_absolute, every event cell of a run is an event cell of the run on the same data with a longer T_fill; without merging, on grids, the cells of one event stay in one event.", "quantifier": "every grid or mesh, data set, R_fill, pair of T_fill values, area threshold, tracking mode", "why_tests_cant": "relates two runs on all inputs; the second hole filling only happens for some settings", "anchors": ["marEx/track.py:tracker.run", "marEx/track.py:tracker.fill_holes", "marEx/track.py:tracker.fill_time_gaps", "marEx/track.py:tracker.filter_small_objects"]}
{"id": "C162", "title": "A lower threshold_percentile only adds event cells", "statement": "preprocess_data followed by tracker.run with area_filter_absolute: lowering threshold_percentile keeps every extreme, and every event cell of the run at the higher percentile is an event cell at the lower one; without merging, on grids, the cells of one event stay in one event.", "quantifier": "every record, anomaly method, percentile method, pair of percentiles and tracking setting", "why_tests_cant": "relates two runs of the whole pipeline on all inputs", "anchors": ["marEx/detect.py:preprocess_data", "marEx/detect.py:identify_extremes", "marEx/track.py:tracker.run", "marEx/track.py:tracker.filter_small_objects"]}
{"id": "C163", "title": "A higher overlap_threshold only divides events", "statement": "With allow_merging, raising overlap_threshold keeps the event cells and the statistics; the cells of one event at the higher threshold are cells of one event at the lower one, so there are at least as many events.", "quantifier": "every grid or mesh, data set, pair of thresholds, filling and filtering setting, time chunking", "why_tests_cant": "relates two runs on all inputs; which objects have several parents depends on the threshold", "anchors": ["marEx/track.py:tracker.run", "marEx/track.py:tracker.check_overlap_slice", "marEx/track.py:tracker.enforce_overlap_threshold", "marEx/track.py:tracker.split_and_merge_objects_parallel", "marEx/track.py:tracker.cluster_rename_objects_and_props"]}
{"id": "C164", "title": "Rounding never decides an overlap on grids", "statement": "On a structured grid the pairs kept by enforce_overlap_threshold, computed in floating point, are those whose shared number of cells is at least overlap_threshold times the smaller object's, whatever decimal fraction the threshold is.", "quantifier": "every series of object fields, table of object sizes and threshold p/q up to 1 with (cells of the smaller object) * q <= 2^52", "why_tests_cant": "thresholds such as 0.3 are not doubles; a tie at the threshold can occur at any size", "anchors": ["marEx/track.py:tracker.check_overlap_slice", "marEx/track.py:tracker.find_overlapping_objects", "marEx/track.py:tracker.enforce_overlap_threshold"]}
{"id": "C165", "title": "Rounding and the overlaps on meshes", "statement": "With float32 areas summed in cell order, the overlap fraction of every pair found on a mesh lies between 0 and 1 (the warning about fractions above 1 cannot appear) and is exactly 1 if one object lies inside the other; pairs are kept or dropped as the exact areas say unless these are within a relative 8 n / 2^24 of the threshold, n the number of cells of the larger object.", "quantifier": "every mesh with positive cell areas, series of object fields and threshold, objects of up to 2^20 cells", "why_tests_cant": "rounding errors of long sums depend on every area and on the order of the cells", "anchors": ["marEx/track.py:tracker.check_overlap_slice", "marEx/track.py:tracker.find_overlapping_objects", "marEx/track.py:tracker.calculate_object_properties", "marEx/track.py:tracker.enforce_overlap_threshold"]}
{"id": "C166", "title": "The area percentile in doubles", "statement": "The area threshold computed in doubles is the linear interpolation at area_filter_quartile of the sorted object areas; an object exactly at the percentile is kept.", "quantifier": "every list of object areas and quartile", "why_tests_cant": "the rounding of q * 100 / 100 * (n - 1) differs for every q and n", "anchors": ["marEx/track.py:tracker.filter_small_objects"]}
{"id": "C167", "title": "What happens elsewhere does not change the events of a region", "statement": "With area_filter_absolute: if two records agree on a region and around it (as far as the filling reaches) and neither run has an event cell on the border of the region, both runs have the same event cells in the region, divided into the same events, none of which leaves it.", "quantifier": "every grid or mesh, region, pair of records, R_fill, T_fill, area threshold, overlap threshold", "why_tests_cant": "relates two runs on all inputs; anything may happen outside the region", "anchors": ["marEx/track.py:tracker.run", "marEx/track.py:tracker.fill_holes", "marEx/track.py:tracker.filter_small_objects", "marEx/track.py:tracker.cluster_rename_objects_and_props"]}
{"id": "C168", "title": "Mesh events of the past do not depend on the future", "statement": "On a mesh with area_filter_absolute, two records that agree in their first e time steps have the same event cells in these steps, divided into the same events, however the records go on.", "quantifier": "every mesh, pair of records, R_fill, T_fill, area threshold, overlap threshold and time chunking", "why_tests_cant": "relates two runs on all inputs and all continuations", "anchors": ["marEx/track.py:tracker.run", "marEx/track.py:tracker.fill_time_gaps", "marEx/track.py:tracker.filter_small_objects", "marEx/track.py:tracker.split_and_merge_objects_parallel", "marEx/track.py:tracker.cluster_rename_objects_and_props"]}
{"id": "C169", "title": "Tracking the events again changes nothing", "statement": "With area_filter_absolute, the cells that belong to events, given to a new tracker with R_fill = 0 and T_fill = 0, give the same ID field, the same number of events and the same merges; the same threshold is reported and nothing is rejected.", "quantifier": "every grid or mesh, data set, filling of the first run, area threshold, overlap threshold and chunking", "why_tests_cant": "relates two runs on all inputs; the filter, the merges and the numbering must all be stable", "anchors": ["marEx/track.py:tracker.run", "marEx/track.py:tracker.filter_small_objects", "marEx/track.py:tracker.fill_holes", "marEx/track.py:tracker.fill_time_gaps", "marEx/track.py:tracker.split_and_merge_objects_parallel"]}
{"id": "C170", "title": "Quiet steps around a record on a mesh", "statement": "On a mesh, time steps without any extreme added before and after the record leave the statistics as they are and only shift the events: the same cells are in events, the same cells in one event, and there are as many events; the added steps have none.", "quantifier": "every mesh, data set, number of added steps, filling and filtering setting, time chunking of either run", "why_tests_cant": "relates two runs of different lengths on all inputs; land and time gaps interact in the filling", "anchors": ["marEx/track.py:tracker.run", "marEx/track.py:tracker.fill_holes", "marEx/track.py:tracker.fill_time_gaps", "marEx/track.py:tracker.filter_small_objects", "marEx/track.py:tracker.split_and_merge_objects_parallel"]}
{"id": "C171", "title": "Events on a grid are the chains of overlapping objects when nothing merges", "statement": "On a structured grid with allow_merging=True: if no connected object overlaps two objects of the step before by overlap_threshold, no merge is recorded and two cells belong to one event exactly when their objects are joined by a chain of overlaps of at least overlap_threshold between consecutive steps.", "quantifier": "every grid, data set, filling and filtering setting, overlap threshold, partitioning rule and time chunking", "why_tests_cant": "an equivalence over all records and all chains of any length; tests check single chains", "anchors": ["marEx/track.py:tracker.run", "marEx/track.py:tracker.split_and_merge_objects", "marEx/track.py:tracker.consolidate_object_ids", "marEx/track.py:tracker.cluster_rename_objects_and_props"]}
{"id": "C172", "title": "Settings for merges do not matter where nothing merges", "statement": "On a structured grid with allow_merging=True: if no connected object overlaps two objects of the step before by overlap_threshold, nn_partitioning and the time chunks of the data make no difference to the ID field, the number of events, the merges and the statistics.", "quantifier": "every grid, data set, filling and filtering setting, overlap threshold; every pair of partitioning rules and of time chunkings", "why_tests_cant": "relates any two runs on all inputs; the chunks cut the loop anywhere", "anchors": ["marEx/track.py:tracker.run", "marEx/track.py:tracker.split_and_merge_objects", "marEx/track.py:tracker.consolidate_object_ids"]}
{"id": "C173", "title": "What is added to one error stays with it", "statement": "The text, class and code of an error never change after it is built, and its context and suggestions hold at any later time what it was built with and what was added to it with add_context and add_suggestion, and nothing that was added to another error or to the caller's dictionary.", "quantifier": "every program of building errors, calling the factories, adding context and suggestions and changing dictionaries and lists, in any order", "why_tests_cant": "aliasing shows only in particular orders of calls on objects that share a dictionary", "anchors": ["marEx/exceptions.py:MarExError", "marEx/exceptions.py:create_data_validation_error", "marEx/exceptions.py:create_coordinate_error", "marEx/exceptions.py:create_processing_error"]}
{"id": "C174", "title": "The error factories", "statement": "create_data_validation_error, create_coordinate_error and create_processing_error return an error of their class and code whose context is the caller's with the known facts written over it, all of it shown in the text, and leave the dictionaries they are given as they were.", "quantifier": "every message, set of facts, context (left out, None or a dictionary) and state of the program", "why_tests_cant": "the contexts and the earlier history are arbitrary", "anchors": ["marEx/exceptions.py:create_data_validation_error", "marEx/exceptions.py:create_coordinate_error", "marEx/exceptions.py:create_processing_error"]}
{"id": "C175", "title": "The dependency report", "statement": "print_dependency_status shows each optional package once with whether it is installed, and suggestions exactly when one is missing; warn_missing_dependency warns exactly for packages that are not installed, naming package, feature and command; importing marEx warns exactly when jax is missing.", "quantifier": "every combination of installed packages", "why_tests_cant": "an environment can only be tested with what it has installed", "anchors": ["marEx/_dependencies.py:DependencyTracker.print_dependency_status", "marEx/_dependencies.py:DependencyTracker.warn_missing_dependency", "marEx/_dependencies.py:DependencyTracker.get_missing_dependencies", "marEx/_dependencies.py:_check_optional_dependencies_on_import"]}
{"id": "C176", "title": "An empty merges dataset means that nothing merged", "statement": "After a run with allow_merging on a structured grid, the merges dataset is empty exactly when no connected object of the event cells overlaps two objects of the step before by overlap_threshold.", "quantifier": "every grid, mask, field, filling and filtering setting, overlap threshold, partitioning rule and time chunking", "why_tests_cant": "a merge hidden anywhere in a record of any length would refute it", "anchors": ["marEx/track.py:tracker.run", "marEx/track.py:tracker.split_and_merge_objects", "marEx/track.py:tracker.consolidate_object_ids"]}
{"id": "C177", "title": "regional_mode does not matter away from the edges", "statement": "A record whose extremes keep away from the edges of the grid (2 R_fill cells, and the last column) has the same events in regional and in global mode.", "quantifier": "every grid, mask, field, filling and filtering setting and tracking options", "why_tests_cant": "relates two whole runs on all inputs; the seam enters filling, labelling and partitioning", "anchors": ["marEx/track.py:tracker.run", "marEx/track.py:tracker.fill_holes", "marEx/track.py:tracker.identify_objects", "marEx/track.py:tracker.split_and_merge_objects"]}
{"id": "C178", "title": "regional_tracker is tracker with the units stated", "statement": "regional_tracker accepts the same arguments as tracker on a structured grid with coordinate_units given, with the same errors; its tracker has the stated units whatever the longitudes; it never returns a tracker for a mesh; unknown keywords and a second regional_mode are refused first.", "quantifier": "every combination of arguments", "why_tests_cant": "the space of arguments and violations is unbounded", "anchors": ["marEx/track.py:regional_tracker", "marEx/track.py:tracker.__init__", "marEx/track.py:tracker._unify_coordinates"]}
{"id": "C179", "title": "What trackers hide of the scheduler's log", "statement": "After any session, a record of the logger distributed.scheduler reaches its handlers exactly when its level reaches the last level given to that logger (or, while none is, to its parents) and no tracker built with debug below 2 filters its text; the filters of all trackers add up and are never undone, and debug=0 or 1 hides every record below ERROR until the user sets the level.", "quantifier": "every session of imports, configure_logging calls, trackers built or refused with any debug, assignments to tracker.debug and levels set by the user, in any order; every record", "why_tests_cant": "logging is global state of the process: what is hidden depends on the whole history of trackers", "anchors": ["marEx/track.py:tracker._configure_warnings", "marEx/track.py:tracker.__init__", "marEx/logging_config.py:_configure_external_loggers"]}
{"id": "C180", "title": "What trackers hide of Python's warnings", "statement": "After any session a Python warning is ignored exactly when the last event that settles it says so: a warnings filter added by the user that applies to it, or a tracker built with debug=0 when it is a UserWarning from distributed.client or Dask's large graph warning. Trackers with other debug levels leave Python's warnings alone.", "quantifier": "every session as before with warnings filters added by the user; every category, module and text", "why_tests_cant": "the order of filters in the process decides; tests run in one order", "anchors": ["marEx/track.py:tracker._configure_warnings"]}
{"id": "C181", "title": "The events carry the input's times under the name given", "statement": "run() returns the time coordinate under the name given in coordinates[\"time\"] with the values of the input, whatever the name of the time dimension; no coordinate other than those two changes; a coordinate that is missing or lies along another dimension is refused.", "quantifier": "every pair of names, list of coordinates and times; grids with and without merging, and meshes", "why_tests_cant": "holds for every combination of names; tests use one pair", "anchors": ["marEx/track.py:tracker._validate_inputs", "marEx/track.py:tracker.run_tracking", "marEx/track.py:tracker.cluster_rename_objects_and_props", "marEx/track.py:tracker.split_and_merge_objects_parallel"]}
{"id": "C182", "title": "The mask matters only near extremes", "statement": "Two trackers on the same record whose masks agree at every cell near an extreme of some step give the same run: the same IDs, merges, statistics or failure. On grids near means within R_fill of a cell within R_fill/2; on meshes within 4 hops of R_fill without gap filling, and 6 where every cell has ocean within R_fill hops.", "quantifier": "every grid and mesh, pair of masks, record, filling, filtering and tracking options", "why_tests_cant": "relates two whole runs on all inputs; the second pass of filling starts from marks on land", "anchors": ["marEx/track.py:tracker.run", "marEx/track.py:tracker.fill_holes", "marEx/track.py:tracker.fill_time_gaps", "marEx/track.py:tracker.filter_small_objects", "marEx/track.py:tracker.identify_objects"]}
{"id": "C183", "title": "The unit of cell_areas does not matter", "statement": "Two trackers whose cell_areas differ by a positive factor give the same IDs, number of events, merges, statistics or failure; areas in the events and merges datasets differ by that factor and nothing else does. On structured grids cell_areas have no influence at all on IDs, merges and statistics.", "quantifier": "every mesh and grid, factor, areas, record, filling, filtering and tracking options", "why_tests_cant": "relates two whole runs on all inputs; areas enter overlaps, partitions and fractions everywhere", "anchors": ["marEx/track.py:tracker.run", "marEx/track.py:tracker.check_overlap_slice", "marEx/track.py:tracker.enforce_overlap_threshold", "marEx/track.py:tracker.split_and_merge_objects_parallel", "marEx/track.py:tracker.calculate_object_properties"]}
{"id": "C184", "title": "Overlap is a fraction of the area of the smaller object", "statement": "On a structured grid where no object merges or splits, cells share an ID exactly when their objects are joined by objects of consecutive steps that share overlap_threshold of the area of the smaller one, areas measured by the cell_areas given.", "quantifier": "every grid, cell_areas, mask, field, filling and filtering setting, overlap threshold, partitioning rule and time chunking", "why_tests_cant": "quantifies over all areas; tests use equal cells", "anchors": ["marEx/track.py:tracker.check_overlap_slice", "marEx/track.py:tracker.enforce_overlap_threshold", "marEx/track.py:tracker.calculate_object_properties", "marEx/track.py:tracker.run"]}
{"id": "C185", "title": "Panels and frames are titled with their dates", "statement": "multi_plot along time and animate title each panel and frame with the date of its step (year-month-day), so that different steps have different titles; along another dimension the title is name=value. The colour bar of a figure has the colours, norm and limits of every panel, the units as label, and is there exactly when asked for.", "quantifier": "every array, names of dimensions and coordinates, list of times, configuration", "why_tests_cant": "any number of panels and any times; images are not compared by tests", "anchors": ["marEx/plotX/base.py:PlotterBase._get_title", "marEx/plotX/base.py:PlotterBase._setup_colorbar", "marEx/plotX/base.py:PlotterBase.multi_plot", "marEx/plotX/base.py:PlotterBase.animate"]}
{"id": "C186", "title": "Reported areas are sums of cell areas up to rounding", "statement": "The area of an event at a step in the events dataset differs from the exact sum of the areas of its cells, as given, by at most 2(27+k) parts in 2^24 on a grid or mesh of up to 112*2^k cells (six parts in a million for a billion cells), and is exact for whole-number areas up to 2^24; the same holds for the areas overlaps are compared with.", "quantifier": "every list of nonnegative cell areas, field of IDs and ID, any number of cells", "why_tests_cant": "rounding errors accumulate with the number of cells; a test with few cells shows none", "anchors": ["marEx/track.py:tracker.calculate_object_properties", "marEx/track.py:tracker.cluster_rename_objects_and_props", "marEx/track.py:tracker.__init__"]}
{"id": "C187", "title": "A mesh is read the same directly and through the dataset", "statement": "neighbours and cell_areas given to the tracker directly or taken from the dataset of preprocess_data give the same mesh, the same areas and the same mean area, or the same failure. The neighbours of a cell are the cells the table numbers from one; every number below one and NaN mean no neighbour; a number beyond the last cell is refused.", "quantifier": "every table of integers or floats, every number of cells, every list of areas", "why_tests_cant": "every type, marker of missing values and processor; tests use one mesh file", "anchors": ["marEx/detect.py:preprocess_data", "marEx/track.py:tracker._setup_unstructured_grid", "marEx/track.py:tracker._build_sparse_dilation_matrix", "marEx/track.py:tracker.identify_objects", "marEx/track.py:tracker.__init__"]}
{"id": "C188", "title": "Importing marEx leaves the process alone", "statement": "Importing marEx any number of times changes no environment variable, no setting of numba and no function of numbagg unless COVERAGE_PROCESS_START or PYTEST_COVERAGE is set to a text that is not empty; then exactly two variables change, the compiler is off, and the functions replaced stay available under their new names however often it is imported.", "quantifier": "every environment, set of packages installed and number of imports", "why_tests_cant": "global state of the process; the tests themselves run under coverage", "anchors": ["marEx/_coverage_init.py:disable_numba_if_coverage", "marEx/_coverage_init.py:initialize_coverage", "marEx/__init__.py"]}
{"id": "C189", "title": "Trackers do not disturb each other through their scratch directories", "statement": "Several trackers on meshes, in one or several processes, each give what they give alone: whatever the scratch directory holds from earlier programs, whatever order their constructors, reads and writes follow each other in, and whether they share a temp_dir or not.", "quantifier": "every number of trackers, meshes, data, settings, initial content of the disk, and interleaving of their steps", "why_tests_cant": "quantifies over all schedules of several processes; a test sees one", "anchors": ["marEx/track.py:tracker._setup_unstructured_grid", "marEx/track.py:tracker.refresh_dask_graph", "marEx/track.py:tracker.track_objects", "marEx/track.py:tracker.split_and_merge_objects_parallel"]}
{"id": "C190", "title": "Frames made at the same time do not mix", "statement": "Every frame file animate makes shows the data of its own step and nothing else, whatever the number of frames made at once and however their calls interleave; figures the program has open are left alone and the active one is active again afterwards.", "quantifier": "every number of frames, open figures and interleaving of the calls of make_frame", "why_tests_cant": "quantifies over all schedules of threads; a test sees one", "anchors": ["marEx/plotX/base.py:make_frame", "marEx/plotX/base.py:PlotterBase.animate"]}
{"id": "C191", "title": "Plots leave the program's random numbers and settings alone", "statement": "The numbers a program draws from numpy.random and its matplotlib settings are the same with and without the plots it makes in between.", "quantifier": "every program of seedings, draws, settings and plots", "why_tests_cant": "global state of the process; tests look at plots, not at the program around them", "anchors": ["marEx/plotX/base.py:PlotterBase.setup_id_plot_params", "marEx/plotX/base.py:PlotterBase.setup_plot_params", "marEx/plotX/base.py:PlotterBase._setup_common_params"]}
{"id": "C192", "title": "An event has one colour in all plots", "statement": "In plots of IDs without a colour map of their own, the colour of an event depends on its ID alone: the same in every record that contains it, whatever other events there are, and whatever random numbers were drawn before.", "quantifier": "every record and ID, every state of the random number generator", "why_tests_cant": "compares plots of different records", "anchors": ["marEx/plotX/base.py:PlotterBase.setup_id_plot_params", "marEx/plotX/base.py:PlotterBase._setup_common_params"]}
{"id": "C193", "title": "The colour bar stands beside its plot", "statement": "single_plot puts the colour bar beside the axes it draws on, new or given, and opens no figure when axes are given.", "quantifier": "every state of pyplot and every axes given", "why_tests_cant": "depends on the history of figures in the process", "anchors": ["marEx/plotX/base.py:PlotterBase._setup_axes", "marEx/plotX/base.py:PlotterBase._setup_colorbar", "marEx/plotX/base.py:PlotterBase.single_plot"]}
{"id": "C194", "title": "Frames outline the objects given", "statement": "With object_ids, the frame animate makes for a date outlines exactly the cells that carry an ID at that date, and has no outline when there are none.", "quantifier": "every record of IDs, shape, grid and length", "why_tests_cant": "relates every frame to another dataset; every error on the way is swallowed, so a test sees a frame either way", "anchors": ["marEx/plotX/base.py:PlotterBase.animate", "marEx/plotX/base.py:make_frame"]}
