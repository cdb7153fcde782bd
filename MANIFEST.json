{
 "claims": [
  {
   "property": "C01",
   "status": "proved",
   "theorems": [
    "C01_weights_never_negative"
   ],
   "note": ""
  },
  {
   "property": "C02",
   "status": "proved",
   "theorems": [
    "C02_interior_has_a_move",
    "C02_ring_has_none"
   ],
   "note": ""
  },
  {
   "property": "C03",
   "status": "proved",
   "theorems": [
    "C03_weight_leads_to_wet_cell"
   ],
   "note": ""
  },
  {
   "property": "C04",
   "status": "proved",
   "theorems": [
    "C04_documented_formula"
   ],
   "note": ""
  },
  {
   "property": "C05",
   "status": "proved",
   "theorems": [
    "C05_gamma_one_ignores_discharge",
    "C05_gamma_zero_ignores_stage",
    "C05_theta_zero_only_wetness",
    "C05_constructor_gamma_one",
    "C05_constructor_gamma_zero"
   ],
   "note": "Hypothesis: the slope (inertia) terms at the cell are finite (0 times NaN or infinity is NaN in IEEE arithmetic). The constructor theorems compare two parameter sets that differ only in the arrays named."
  },
  {
   "property": "C06",
   "status": "proved",
   "theorems": [
    "C06_shares_sum_to_one",
    "C06_discharge_scale"
   ],
   "note": ""
  },
  {
   "property": "C07",
   "status": "partial",
   "theorems": [
    "C07_random_pick_positive",
    "C07_zero_draw_refuted"
   ],
   "note": "True for every draw that does not map exactly to cumulative weight 0; C07_zero_draw_refuted gives the exceptional draw (0.0) on which direction 0 is chosen although its weight is 0."
  },
  {
   "property": "C08",
   "status": "proved",
   "theorems": [
    "C08_pick_interval",
    "C08_interval_length"
   ],
   "note": ""
  },
  {
   "property": "C09",
   "status": "partial",
   "theorems": [
    "C09_steepest_is_maximal",
    "C09_pit_refuted"
   ],
   "note": "Maximality holds whenever some weight is positive; in a pit every weight is zeroed and direction 0 is returned (C09_pit_refuted)."
  },
  {
   "property": "C10",
   "status": "proved",
   "theorems": [
    "C10_every_history",
    "C10_random_pick_repeatable",
    "C10_steep_descent_repeatable"
   ],
   "note": ""
  },
  {
   "property": "C11",
   "status": "proved",
   "theorems": [
    "C11_one_cell_per_step"
   ],
   "note": ""
  },
  {
   "property": "C12",
   "status": "proved",
   "theorems": [
    "C12_sticky_edges"
   ],
   "note": ""
  },
  {
   "property": "C13",
   "status": "proved",
   "theorems": [
    "C13_never_leaves_domain"
   ],
   "note": ""
  },
  {
   "property": "C14",
   "status": "partial",
   "theorems": [
    "C14_ring_seed_refuted",
    "C14_ring_seed_partial"
   ],
   "note": "False for seeds in row 0 / column 0 other than (0,0) (C14_ring_seed_refuted: a particle seeded at (0,3) is recorded at row -1). C14_ring_seed_partial covers all other ring cells and the interior."
  },
  {
   "property": "C15",
   "status": "proved",
   "theorems": [
    "C15_origin_absorbing"
   ],
   "note": ""
  },
  {
   "property": "C16",
   "status": "proved",
   "theorems": [
    "C16_travels_on_wet_cells"
   ],
   "note": "Draws that map to cumulative weight exactly 0 are excluded (hypothesis clear_draw), as the property says."
  },
  {
   "property": "C17",
   "status": "proved",
   "theorems": [
    "C17_times_never_decrease"
   ],
   "note": ""
  },
  {
   "property": "C18",
   "status": "proved",
   "theorems": [
    "C18_travel_time_formula",
    "C18_no_diffusion"
   ],
   "note": "C18_no_diffusion: with diff_coeff = 0 two steps between the same cells take equally long, whatever the random streams of the two sessions."
  },
  {
   "property": "C19",
   "status": "proved",
   "theorems": [
    "C19_rectangular"
   ],
   "note": ""
  },
  {
   "property": "C20",
   "status": "proved",
   "theorems": [
    "C20_run_appends",
    "C20_run_to_appends",
    "C20_generate_keeps"
   ],
   "note": ""
  },
  {
   "property": "C21",
   "status": "proved",
   "theorems": [
    "C21_no_standing_still"
   ],
   "note": ""
  },
  {
   "property": "C22",
   "status": "proved",
   "theorems": [
    "C22_tracked_variables_agree",
    "C22_named_grids"
   ],
   "note": ""
  },
  {
   "property": "C23",
   "status": "proved",
   "theorems": [
    "C23_run_conserves",
    "C23_run_to_conserves",
    "C23_generate_order"
   ],
   "note": ""
  },
  {
   "property": "C24",
   "status": "proved",
   "theorems": [
    "C24_at_most_one_step"
   ],
   "note": ""
  },
  {
   "property": "C25",
   "status": "proved",
   "theorems": [
    "C25_stopping_rule",
    "C25_close_to_target"
   ],
   "note": ""
  },
  {
   "property": "C26",
   "status": "proved",
   "theorems": [
    "C26_bounded",
    "C26_returns"
   ],
   "note": ""
  },
  {
   "property": "C27",
   "status": "partial",
   "theorems": [
    "C27_warning_incomplete_refuted",
    "C27_warning_partial"
   ],
   "note": "False of the code: _iter_particles is reset for every particle (C27_warning_incomplete_refuted). C27_warning_partial says exactly what the list contains."
  },
  {
   "property": "C28",
   "status": "partial",
   "theorems": [
    "C28_empty_run_partial",
    "C28_empty_target_run_refuted"
   ],
   "note": "False with a target time (UnboundLocalError, C28_empty_target_run_refuted, for every such session); true without one."
  },
  {
   "property": "C29",
   "status": "proved",
   "theorems": [
    "C29_exact_round_robin",
    "C29_balanced",
    "C29_accepted"
   ],
   "note": ""
  },
  {
   "property": "C30",
   "status": "proved",
   "theorems": [
    "C30_random_in_lists"
   ],
   "note": ""
  },
  {
   "property": "C31",
   "status": "partial",
   "theorems": [
    "C31_pairs_refuted",
    "C31_pairs_partial"
   ],
   "note": "False of the code: rows and columns are drawn independently (C31_pairs_refuted). It holds when all seeds lie in one row or one column (C31_pairs_partial); in general only C30 holds."
  },
  {
   "property": "C32",
   "status": "partial",
   "theorems": [
    "C32_aligned_partial",
    "C32_misaligned_refuted"
   ],
   "note": "False if previous_walk_data lacks a tracked variable (C32_misaligned_refuted); true if it lists every tracked variable."
  },
  {
   "property": "C33",
   "status": "proved",
   "theorems": [
    "C33_rejected_changes_nothing",
    "C33_accepted_is_generate"
   ],
   "note": ""
  },
  {
   "property": "C34",
   "status": "proved",
   "theorems": [
    "C34_accepted_parameters"
   ],
   "note": ""
  },
  {
   "property": "C35",
   "status": "proved",
   "theorems": [
    "C35_velocity_floor",
    "C35_inverse_velocity"
   ],
   "note": ""
  },
  {
   "property": "C36",
   "status": "proved",
   "theorems": [
    "C36_depth_clean",
    "C36_stage_clean"
   ],
   "note": ""
  },
  {
   "property": "C37",
   "status": "proved",
   "theorems": [
    "C37_default_cell_types"
   ],
   "note": ""
  },
  {
   "property": "C38",
   "status": "proved",
   "theorems": [
    "C38_rotated_discharge",
    "C38_rotated_velocity"
   ],
   "note": ""
  },
  {
   "property": "C39",
   "status": "partial",
   "theorems": [
    "C39_construct_twice_partial",
    "C39_velocity_input_refuted"
   ],
   "note": "True for discharge input; false for velocity input, where construction writes the 1e-8 floor into the caller's array (C39_velocity_input_refuted)."
  },
  {
   "property": "C40",
   "status": "proved",
   "theorems": [
    "C40_tables",
    "C40_inertia_iff_projected"
   ],
   "note": "Over the real numbers (the tables are irrational); the second theorem is about the model's inertia and projected-distance formulas instantiated at R."
  },
  {
   "property": "C41",
   "status": "proved",
   "theorems": [
    "C41_exposure_defined",
    "C41_trapezoid",
    "C41_never_negative"
   ],
   "note": ""
  },
  {
   "property": "C42",
   "status": "proved",
   "theorems": [
    "C42_complement",
    "C42_additive"
   ],
   "note": ""
  },
  {
   "property": "C43",
   "status": "proved",
   "theorems": [
    "C43_own_path_only",
    "C43_concatenation",
    "C43_still_inside"
   ],
   "note": ""
  },
  {
   "property": "C44",
   "status": "proved",
   "theorems": [
    "C44_index_round_trip",
    "C44_index_round_trip_exact",
    "C44_half_cell"
   ],
   "note": "binary64 for cell sizes in [2^-100,2^100] and origins within 2^40 cells; exact arithmetic without bounds."
  },
  {
   "property": "C45",
   "status": "partial",
   "theorems": [
    "C45_refuted",
    "C45_lower_strip_refuted",
    "C45_right_strip_refuted",
    "C45_in_range_partial"
   ],
   "note": "False of the code: the lower half of the bottom row maps to row L and the right half of the last column to column W (refuted theorems). C45_in_range_partial gives the exact strip where it holds."
  },
  {
   "property": "C46",
   "status": "proved",
   "theorems": [
    "C46_counts",
    "C46_normalised",
    "C46_percentile_defined"
   ],
   "note": ""
  },
  {
   "property": "C47",
   "status": "partial",
   "theorems": [
    "C47_refuted",
    "C47_signal_kept_iff",
    "C47_clip100_partial"
   ],
   "note": "False of the code: if fewer than 0.5% of the cells were visited, the clip value is 0 and the whole map becomes NaN (C47_refuted). C47_signal_kept_iff says exactly when, C47_clip100_partial covers clip=100."
  },
  {
   "property": "C48",
   "status": "proved",
   "theorems": [
    "C48_mean_stay",
    "C48_clipped"
   ],
   "note": ""
  },
  {
   "property": "C49",
   "status": "proved",
   "theorems": [
    "C49_slice",
    "C49_reachable"
   ],
   "note": "For all rectangular walk data (C49_reachable: every walk produced by the API is). On ragged data get_state may append twice for a particle; outside the property."
  },
  {
   "property": "C50",
   "status": "proved",
   "theorems": [
    "C50_nearest",
    "C50_nearest_exact"
   ],
   "note": "binary64: nearest by the computed distance; exact arithmetic: by the true distance."
  },
  {
   "property": "C51",
   "status": "partial",
   "theorems": [
    "C51_tracked_variable_refuted",
    "C51_tracked_variable_steady_refuted",
    "C51_no_variable_refuted",
    "C51_plot_state_partial",
    "C51_steady_partial"
   ],
   "note": "False of the code: get_state returns 4 components if a variable is tracked and 3 otherwise; the routines unpack a fixed number (three refuted theorems, each for all walk data of one kind). The partial theorems cover walk data without tracked variables."
  },
  {
   "property": "C52",
   "status": "proved",
   "theorems": [
    "C52_counts_proportional",
    "C52_within_one",
    "C52_errors"
   ],
   "note": ""
  },
  {
   "property": "C53",
   "status": "partial",
   "theorems": [
    "C53_column_behaviour_partial",
    "C53_column_fails_refuted",
    "C53_column_misallocates_refuted"
   ],
   "note": "False of the code: argsort works along the last axis, of length 1. C53_column_behaviour_partial is the exact behaviour; the refuted theorems give a failing call and a misallocation."
  },
  {
   "property": "C54",
   "status": "proved",
   "theorems": [
    "C54_between",
    "C54_constant",
    "C54_linear",
    "C54_nearest"
   ],
   "note": "Exact arithmetic; the KD-tree is any function with finite non-negative distances and valid indices."
  },
  {
   "property": "C55",
   "status": "proved",
   "theorems": [
    "C55_extent"
   ],
   "note": ""
  },
  {
   "property": "C56",
   "status": "proved",
   "theorems": [
    "C56_every_schedule",
    "C56_never_fails",
    "C56_no_iterations_fail"
   ],
   "note": "For every execution of the pool model (tasks taken in order by free workers, delivered in any order, arbitrary worker streams). C56_no_iterations_fail: with num_iter = 0 the call always raises UnboundLocalError."
  },
  {
   "property": "C57",
   "status": "partial",
   "theorems": [
    "C57_workers_repeat_refuted",
    "C57_same_worker_partial"
   ],
   "note": "False of the code with the 'fork' start method: workers inherit the caller's generator, so blocks computed by different workers are identical (C57_workers_repeat_refuted, for every such execution). C57_same_worker_partial: tasks of one worker use disjoint segments and depend on nothing else."
  },
  {
   "property": "C58",
   "status": "partial",
   "theorems": [
    "C58_systemwide",
    "C58_localized",
    "C58_covered_partial",
    "C58_coarse_resolution_refuted"
   ],
   "note": "Length and contents hold for every resolution > 0. 'Every particle is assigned to a chunk' is false for a resolution larger than the grid (no chunk at all, C58_coarse_resolution_refuted) and proved otherwise (C58_covered_partial)."
  },
  {
   "property": "C59",
   "status": "partial",
   "theorems": [
    "C59_refuted",
    "C59_multiplicity_partial"
   ],
   "note": "False of the code: the bounds are inclusive on both sides (C59_refuted). C59_multiplicity_partial says exactly how many chunks count a particle."
  },
  {
   "property": "C60",
   "status": "proved",
   "theorems": [
    "C60_localized_le_systemwide"
   ],
   "note": "binary64; finite non-decreasing times."
  },
  {
   "property": "C61",
   "status": "proved",
   "theorems": [
    "C61_definition",
    "C61_within_window",
    "C61_constant",
    "C61_small_threshold_refuted"
   ],
   "note": "Exact arithmetic, thresholds >= 1 as the property says (C61_small_threshold_refuted: below 1 a cell can be lost)."
  },
  {
   "property": "C62",
   "status": "proved",
   "theorems": [
    "C62_quantiles",
    "C62_ordered",
    "C62_maps"
   ],
   "note": "binary64; the density estimate is any function with non-negative values of positive finite total; exposure times are zero, NaN or at least 2^-900 s (rounding near the underflow threshold would break np.linspace)."
  },
  {
   "property": "C63",
   "status": "proved",
   "theorems": [
    "C63_cdf",
    "C63_smoothed"
   ],
   "note": "binary64; finite non-negative final travel times, at most one exposure time per particle, up to 2^53 particles (2^30 for the smoothed curve, whose end time must be 0 or at least 2^-960 s)."
  },
  {
   "property": "C64",
   "status": "proved",
   "theorems": [
    "C64_quantiles"
   ],
   "note": "binary64, up to 2^30 particles (the 1e-12 slack in the code would matter beyond that order of magnitude)."
  },
  {
   "property": "C65",
   "status": "partial",
   "theorems": [
    "C65_thresholds_partial",
    "C65_refuted"
   ],
   "note": "False of the code: with fewer than nine tenths of the particles leaving, the routine always ends with an IndexError (C65_refuted and the second half of C65_thresholds_partial); otherwise it completes and reports the first grid times."
  },
  {
   "property": "C66",
   "status": "partial",
   "theorems": [
    "C66_levels_partial",
    "C66_documented_accepted",
    "C66_undocumented_refuted",
    "C66_verbose",
    "C66_one_handler",
    "C66_handlers_kept"
   ],
   "note": "ASCII level names. 'Exactly the documented names' is false: NOTSET, WARN and FATAL are accepted too, and '_STYLES' raises TypeError instead of ValueError (C66_undocumented_refuted, C66_levels_partial). One handler at most and the verbose mapping are proved in full."
  },
  {
   "property": "C67",
   "status": "proved",
   "theorems": [
    "C67_history",
    "C67_append_only",
    "C67_completes",
    "C67_no_steps"
   ],
   "note": "binary64; flow fields given as four arrays of one shape (the file reading is not modelled), seeds that the code handles safely. Completion is proved for fields with finite weights and a timestep of at least 2^-900 s; with no field or no step the routine ends with an UnboundLocalError (C67_no_steps)."
  },
  {
   "property": "C68",
   "status": "proved",
   "theorems": [
    "C68_frames",
    "C68_colours_aligned",
    "C68_segments"
   ],
   "note": "interval >= 1, tail_length >= 0."
  },
  {
   "property": "C69",
   "status": "proved",
   "theorems": [
    "C69_uniform_seed_choice"
   ],
   "note": ""
  },
  {
   "property": "C70",
   "status": "proved",
   "theorems": [
    "C70_documented_history"
   ],
   "note": ""
  },
  {
   "property": "C71",
   "status": "proved",
   "theorems": [
    "C71_run_never_raises",
    "C71_target_run_never_raises"
   ],
   "note": ""
  },
  {
   "property": "C72",
   "status": "partial",
   "theorems": [
    "C72_crop_keeps_numbers_partial",
    "C72_regular_partial",
    "C72_no_boundary",
    "C72_crop_interior_refuted"
   ],
   "note": "False of the code: interior all-NaN rows/columns are removed too (C72_crop_interior_refuted). C72_crop_keeps_numbers_partial says exactly what is kept; C72_regular_partial: if the rows and the columns with a number are contiguous, only borders are removed."
  },
  {
   "property": "C73",
   "status": "partial",
   "theorems": [
    "C73_longer_series_refuted",
    "C73_exact_length_partial"
   ],
   "note": "False of the code: a longer series is not cut (C73_longer_series_refuted). True when num_steps is the length of the series."
  },
  {
   "property": "C74",
   "status": "partial",
   "theorems": [
    "C74_too_few_points_refuted",
    "C74_enough_points_partial"
   ],
   "note": "False of the code for fewer points than k (IndexError, for every such call); true otherwise."
  },
  {
   "property": "C75",
   "status": "proved",
   "theorems": [
    "C75_reproducible",
    "C75_results"
   ],
   "note": ""
  },
  {
   "property": "C76",
   "status": "partial",
   "theorems": [
    "C76_refuted",
    "C76_without_outliers_partial",
    "C76_separated_partial"
   ],
   "note": "False of the code, with the default window and threshold (C76_refuted). The order is kept if neither window has an outlier, or if the two windows do not overlap in value."
  },
  {
   "property": "C77",
   "status": "partial",
   "theorems": [
    "C77_first_handler_partial",
    "C77_later_handler_refuted"
   ],
   "note": "False of the code: only the first handler is installed, later ones are ignored (C77_later_handler_refuted)."
  },
  {
   "property": "C78",
   "status": "proved",
   "theorems": [
    "C78_last_level"
   ],
   "note": ""
  },
  {
   "property": "C79",
   "status": "proved",
   "theorems": [
    "C79_step_draws",
    "C79_no_interaction",
    "C79_target_draws",
    "C79_later_particles_do_not_matter"
   ],
   "note": "binary64, any generator stream with values in [0,1)."
  },
  {
   "property": "C80",
   "status": "proved",
   "theorems": [
    "C80_travel_paths"
   ],
   "note": "binary64 walk data with rows of equal lengths (as every session produces, C04). The figure itself is not modelled."
  },
  {
   "property": "C81",
   "status": "partial",
   "theorems": [
    "C81_last_plot_refuted",
    "C81_frames_partial"
   ],
   "note": "False of the code: the plot end_val is never a frame (C81_last_plot_refuted); the frames are start_val..end_val-1 (C81_frames_partial)."
  },
  {
   "property": "C82",
   "status": "proved",
   "theorems": [
    "C82_opacity"
   ],
   "note": "Exact arithmetic. matplotlib's Normalize(0, vmax, clip=True) and NumPy's nanpercentile are modelled; colour maps are not."
  },
  {
   "property": "C83",
   "status": "proved",
   "theorems": [
    "C83_path_probability"
   ],
   "note": "Exact arithmetic; random routing (no steepest descent). Hypothesis: the routing weights are finite (C05)."
  },
  {
   "property": "C84",
   "status": "proved",
   "theorems": [
    "C84_locality"
   ],
   "note": "binary64. The second run is proved to succeed, not assumed; its set-up only has to be accepted by the constructor."
  },
  {
   "property": "C85",
   "status": "proved",
   "theorems": [
    "C85_clock"
   ],
   "note": "Exact arithmetic, no hypothesis on the set-up; both runs fail with the same error or both succeed."
  },
  {
   "property": "C86",
   "status": "proved",
   "theorems": [
    "C86_cell_size"
   ],
   "note": "Exact arithmetic; programs without target times. Holds for every parameter set, also for those the constructor rejects."
  },
  {
   "property": "C87",
   "status": "proved",
   "theorems": [
    "C87_datum"
   ],
   "note": "Exact arithmetic; every parameter set and program. Holds for both ways of giving the stage (stage grid, or topography plus depth)."
  },
  {
   "property": "C88",
   "status": "partial",
   "theorems": [
    "C88_interrupted_partial",
    "C88_all_appends",
    "C88_interrupted_refuted"
   ],
   "note": "Equal length is refuted: stopping after the first append of a record always leaves one more x index than y indices. Proved for every session, call and stopping point: earlier records intact, only one particle affected, lists shorter by at most one, everything kept is an initial part of what the complete call returns, and cutting to the shortest list recovers complete records. Modelled: the walk data as a sequence of appends; not the weight array or the generator state at that moment."
  },
  {
   "property": "C89",
   "status": "partial",
   "theorems": [
    "C89_returned_data_partial",
    "C89_returned_data_refuted"
   ],
   "note": "Refuted: the dictionary returned by a run reads, after the next run, like the one returned by that run (C89_returned_data_refuted, all sessions). Proved for every program on any number of objects, with any sharing and with exceptions: entries are only added at the ends of lists, none changed or lost."
  },
  {
   "property": "C90",
   "status": "partial",
   "theorems": [
    "C90_objects_alone_partial",
    "C90_call_partial",
    "C90_objects_alone_refuted"
   ],
   "note": "Refuted: if object j gets the walk data of object i as previous_walk_data, every run of j moves the particles of i (C90_objects_alone_refuted, all sessions). Proved for all programs in which data passed on are not in use: each object behaves as in a session of its own. Modelled: inner lists as heap objects; the generator as one stream per object."
  },
  {
   "property": "C91",
   "status": "partial",
   "theorems": [
    "C91_histories_partial",
    "C91_own_data",
    "C91_histories_refuted"
   ],
   "note": "Refuted: an object given its own walk data records two moves per step in every history, here the same cell twice in a row. C91_own_data: particle and copy share all lists for ever. Proved when the data passed on are not in use."
  },
  {
   "property": "C92",
   "status": "proved",
   "theorems": [
    "C92_larger_region",
    "C92_longer_history",
    "C92_session"
   ],
   "note": ""
  },
  {
   "property": "C93",
   "status": "proved",
   "theorems": [
    "C93_positive_iff_along_flow"
   ],
   "note": ""
  },
  {
   "property": "C94",
   "status": "proved",
   "theorems": [
    "C94_better_direction_more_weight"
   ],
   "note": ""
  },
  {
   "property": "C95",
   "status": "proved",
   "theorems": [
    "C95_symmetric_weights",
    "C95_symmetric_paths"
   ],
   "note": ""
  },
  {
   "property": "C96",
   "status": "proved",
   "theorems": [
    "C96_steepest_descent_deterministic"
   ],
   "note": ""
  },
  {
   "property": "C97",
   "status": "proved",
   "theorems": [
    "C97_flow_speed"
   ],
   "note": "Exact arithmetic, runs without target times; the math library is any with sqrt(k*k*x) = k*sqrt(x) and scale-free directions. Where a velocity is raised to the floor of 1e-8 the times do not scale, hence the above_floor hypothesis."
  },
  {
   "property": "C98",
   "status": "partial",
   "theorems": [
    "C98_listing_order",
    "C98_one_label_per_step",
    "C98_time_order_partial",
    "C98_padded_numbers_partial",
    "C98_time_order_refuted"
   ],
   "note": "False of the code for unpadded numbers (C98_time_order_refuted: with 1..10 the second step uses timestep 10, whatever the files contain). Proved: the listing order is irrelevant (every folder), each step combines the files of one label, labels that ascend as strings, e.g. padded numbers, are used in order; the run is then exactly that of C67."
  },
  {
   "property": "C99",
   "status": "partial",
   "theorems": [
    "C99_npz_refuted",
    "C99_same_folder_partial"
   ],
   "note": "False for npz (C99_npz_refuted: the run always fails, every folder). Proved for csv and npy (more depth files than entries that begin with data). What np.load and np.loadtxt return is a parameter; reading a folder raises."
  },
  {
   "property": "C100",
   "status": "proved",
   "theorems": [
    "C100_agreement"
   ],
   "note": "Exact arithmetic. Where nourishment_time reports NaN (no visit or zero mean) the cell counts as zero."
  },
  {
   "property": "C101",
   "status": "partial",
   "theorems": [
    "C101_depth_given",
    "C101_stage_and_topography_exact",
    "C101_stage_and_topography_partial",
    "C101_rounding_refuted"
   ],
   "note": "Depth with topography = depth with stage, bit for bit. Stage with topography agrees exactly in exact arithmetic, and with doubles wherever topography + depth - topography is not rounded; otherwise refuted: 0.1 m of water at 100 m above datum becomes land (C101_rounding_refuted)."
  },
  {
   "property": "C102",
   "status": "proved",
   "theorems": [
    "C102_same_paths",
    "C102_calibration"
   ],
   "note": "binary64, bit for bit; programs without target time (a target time stops particles by their times). Diffusion has to be on in both or off in both because it consumes random numbers."
  },
  {
   "property": "C103",
   "status": "partial",
   "theorems": [
    "C103_velocity_or_discharge",
    "C103_speeds_exact",
    "C103_wet_cells",
    "C103_thin_film_refuted"
   ],
   "note": "Paths: binary64, DeltaRCM coordinates (C38 carries over the other convention), and exact arithmetic in both conventions. Speeds: exact arithmetic, any library with homogeneous sqrt; the factor is h^2/(h^2+1e-8). Refuted for thin films if dry_depth is set lower: at 0.1 mm the speed is halved (C103_thin_film_refuted)."
  },
  {
   "property": "C104",
   "status": "partial",
   "theorems": [
    "C104_no_faster_than_the_flow_partial",
    "C104_no_slower_than_the_flow_partial",
    "C104_any_direction_refuted"
   ],
   "note": "Exact arithmetic; one flow direction (flow_towards: cos of the angle to the flow is the component of the step along it). In any other direction false: steps across or against the flow take no time (C104_any_direction_refuted)."
  },
  {
   "property": "C105",
   "status": "partial",
   "theorems": [
    "C105_run_again_partial",
    "C105_short_steps_refuted",
    "C105_already_past_partial",
    "C105_past_target_refuted"
   ],
   "note": "binary64 for the same target, exact arithmetic for an earlier one. Proved if the last step took more than 0.1 s (same target) or some time (earlier target), the run was not cut off by max_iter and the particle does not happen to pick its own cell. Refuted without the first condition: C105_short_steps_refuted, C105_past_target_refuted."
  },
  {
   "property": "C106",
   "status": "partial",
   "theorems": [
    "C106_stop_on_the_way_partial",
    "C106_short_steps_refuted"
   ],
   "note": "Exact arithmetic, one particle (with several the random numbers are consumed in another order), under the conditions of C105 at the stop. Refuted for steps shorter than 0.1 s (C106_short_steps_refuted)."
  },
  {
   "property": "C107",
   "status": "partial",
   "theorems": [
    "C107_later_target_partial",
    "C107_rounding_refuted"
   ],
   "note": "Exact arithmetic. With doubles false: distances to a far target may be rounded to the same number (C107_rounding_refuted)."
  },
  {
   "property": "C108",
   "status": "partial",
   "theorems": [
    "C108_recorded_time_partial",
    "C108_final_position_refuted"
   ],
   "note": "binary64: the returned time is the one asked for; the returned record is the first with that time, hence the recorded position if no earlier record has the same time. False otherwise (C108_final_position_refuted: after a step that took no time)."
  },
  {
   "property": "C109",
   "status": "proved",
   "theorems": [
    "C109_area_from_counts",
    "C109_particle_order",
    "C109_batches"
   ],
   "note": "binary64. Also for batches put together in either order (counts add up)."
  },
  {
   "property": "C110",
   "status": "partial",
   "theorems": [
    "C110_particle_order_partial",
    "C110_rounding_refuted"
   ],
   "note": "Exact arithmetic. With doubles false in the last digits (C110_rounding_refuted: three particles resting 1, 2^-53, 2^-53 in one cell)."
  },
  {
   "property": "C111",
   "status": "partial",
   "theorems": [
    "C111_vertical_unit_partial",
    "C111_same_paths_partial",
    "C111_discharges_refuted"
   ],
   "note": "Exact arithmetic. Times: velocities given (C111_vertical_unit_partial: also both runs fail alike). Paths: also with discharges, without target times (C111_same_paths_partial). Refuted for the times with discharges: in kilometres they differ (C111_discharges_refuted)."
  },
  {
   "property": "C112",
   "status": "partial",
   "theorems": [
    "C112_saved_data_partial",
    "C112_float32_refuted"
   ],
   "note": "binary64. The writer and the reader of json are modelled character by character (Json.v), except how a finite float is written: any format that can be read back exactly and uses number characters only (float_text). False for tracked grids that are not float64 (C112_float32_refuted, every session with a particle)."
  },
  {
   "property": "C113",
   "status": "proved",
   "theorems": [
    "C113_continue_from_file"
   ],
   "note": "binary64; any later stream and generator position. The loaded dictionary needs not be the same Python object."
  },
  {
   "property": "C114",
   "status": "partial",
   "theorems": [
    "C114_levee_partial",
    "C114_default_types",
    "C114_corners_refuted",
    "C114_deep_land_refuted"
   ],
   "note": "Any number type with the stated laws (binary64 and exact). False for lines of land cells touching at corners (C114_corners_refuted), and for land cells deeper than dry_depth next to a dead end (C114_deep_land_refuted). C114_default_types: with the default cell types land is never deep."
  },
  {
   "property": "C115",
   "status": "proved",
   "theorems": [
    "C115_steady_flow"
   ],
   "note": "binary64, every completed run (C67_completes says when runs complete)."
  },
  {
   "property": "C116",
   "status": "proved",
   "theorems": [
    "C116_theta_favours_depth"
   ],
   "note": "exact arithmetic; the power function is a parameter with the stated law."
  },
  {
   "property": "C117",
   "status": "proved",
   "theorems": [
    "C117_gamma_favours_slope"
   ],
   "note": "exact arithmetic; dead ends are covered by C05 and C16."
  },
  {
   "property": "C118",
   "status": "proved",
   "theorems": [
    "C118_downhill"
   ],
   "note": "binary64. Draws that map to cumulative weight exactly 0 are excluded (hypothesis clear_draw), as the property says."
  },
  {
   "property": "C119",
   "status": "proved",
   "theorems": [
    "C119_down_or_along"
   ],
   "note": "binary64. Draws that map to cumulative weight exactly 0 are excluded (hypothesis clear_draw), as the property says."
  },
  {
   "property": "C120",
   "status": "proved",
   "theorems": [
    "C120_missing_variable",
    "C120_earlier_values_lost"
   ],
   "note": "binary64, run_iteration() without a target time. The walk data are those of a session with any set of variables left out."
  },
  {
   "property": "C121",
   "status": "proved",
   "theorems": [
    "C121_past_states_stay"
   ],
   "note": "binary64; iteration numbers from 0; continuations without clear_walk_data and without previous_walk_data (with the latter the particle numbers shift, C23)."
  },
  {
   "property": "C122",
   "status": "proved",
   "theorems": [
    "C122_past_times_stay"
   ],
   "note": "binary64; set-ups in which times do not decrease (C17) and finite times; continuations as in C121."
  },
  {
   "property": "C123",
   "status": "proved",
   "theorems": [
    "C123_clear_is_a_new_start"
   ],
   "note": "binary64; the number of particles remembered by the object is compared once particles exist (clear_walk_data does not reset it; no call reads it before generate_particles sets it)."
  },
  {
   "property": "C124",
   "status": "partial",
   "theorems": [
    "C124_assigned_data_partial",
    "C124_more_particles_refuted",
    "C124_fewer_particles_refuted",
    "C124_left_behind"
   ],
   "note": "binary64. Holds if no particles were generated on the receiving object before, or as many as the data have. Otherwise false: with more, run_iteration raises IndexError; with fewer, the other particles are silently not moved, even after clear_walk_data."
  }
 ]
}