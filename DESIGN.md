# Formal model of passaH2O/dorado in Rocq/Coq: design

This file says what is modelled, how each property of `properties.jsonl` is stated and proved, what has to be trusted, and
what the proofs found out about the code.  The first version (plan only) was committed before the proofs; section 7 keeps that plan.

## 1. Approach

* The Python functions are transcribed one by one as total, computable Gallina functions
  (`rocq/theories/`).  Each definition cites the file and lines it models and says where it simplifies.
* Python exceptions are values (`res A := Ok a | Err exn`).  Loops are structural recursion.  The only
  unbounded loop (`while` in `run_iteration`) gets fuel derived from `max_iter`, and running out of fuel is
  an explicit error value that is shown unreachable (C26, C71).
* Numbers.  The model is written once over an abstract number interface (class `Num`, `Num.v`) and interpreted twice:
  * `f64`: IEEE-754 binary64 with NaN, infinities and signed zeros, round-to-nearest-even (Flocq's
    `BinarySingleNaN`, `F64.v`).  Properties about signs, comparisons, ordering and control flow are proved here,
    that is, including rounding.
  * `xq`: exact rationals extended with NaN and infinities (`XQ.v`).  Algebraic identities (sums to one, partition of
    exposure time, round trips) are proved here, where they are meaningful; they are false or only
    approximate under rounding.
  * For trigonometric facts about the D8 tables (C40) the real numbers of the standard library are used.
  Most lemmas are proved once for every number type with the laws of the classes `NumLaws`, `NumMore`, `NumPost`, `NumFrac`; the laws
  themselves are proved (not assumed) for `f64` (`F64Laws.v`, from Flocq's correctness theorems) and `xq` (`XQLaws.v`).
* The math library (`sqrt`, `cos`, `arctan2`, `**`) is a record of functions (`Libm`) passed as
  an argument: theorems hold for every such library, with explicit hypotheses where one is needed
  (e.g. `cos` never exceeds 1).
* The random generator is an infinite stream of draws in [0,1) plus a position.  Theorems quantify over
  every stream, so they hold for every seed and generator.
* NumPy arrays are a shape plus a cell function; reads go through NumPy's index rule (negative indices wrap,
  out of range is IndexError), slices through Python's clamping rule (`Py.v`).
* In-place mutation that outlives a call is part of the state: `Particles.weight` (edited by the pick
  functions), `walk_data`, and the caller's parameter arrays (returned by the constructor model).
* A *session* (`SpecApi.v`) is: a standard set-up (parameters a user is expected to give, `SpecInit.v`), an object that the constructor
  returned for them, a random stream, and a state reached by any sequence of API calls (`generate_particles`, `run_iteration` with and without
  target time, `clear_walk_data`) that returned normally.  Invariants are proved by induction over all such sequences.
* Concurrency (`Parallel.v`): a pool is a set of workers each taking tasks; every interleaving of start/finish events is a run, and theorems
  quantify over all of them.

File naming: model files (`Walker`, `ParticleTrack`, `Gen`, `PostProc`, `Grid`, `Routines`, `Spatial`, `Parallel`, `Unsteady`, `Files`, `Json`, `Logging`, `Plots`);
`Spec*.v`: the vocabulary in which properties are stated, independent of the model's helpers; `Proof*.v`: proofs; `P_*.v`: the property theorems, each followed by `Print Assumptions` and by an
`Example` with a concrete, non-trivial case that meets the hypotheses; `Examples*.v`: the concrete objects used there.

## 2. What is modelled

| source | model | functions |
|--------|-------|-----------|
| lagrangian_walker.py | `Walker.v` | all fourteen functions |
| particle_track.py | `ParticleTrack.v` | `Particles.__init__`, `clear_walk_data`, `generate_particles`, `run_iteration` (both forms) |
| particle_track.py | `Gen.v` | `gen_input_check` and `generate_particles` as a call with side effects (state after an exception) |
| particle_track.py | `PostProc.v` | `coord2ind`, `ind2coord`, `exposure_time`, `nourishment_area`, `nourishment_time` |
| particle_track.py | `Grid.v` | `unstruct2grid`, `flux_proportional_seeding` |
| routines.py | `Routines.v` | `steady_plots`, `time_plots` (walk data and number of iterations), `get_state`, `get_time_state`, `plot_state`, `plot_exposure_time`, `plot_exposure_time_thresholds`, `draw_travel_path`, `snake_plots` (what is drawn) |
| routines.py | `Unsteady.v` | `unsteady_plots` (walk data) |
| routines.py | `Files.v` | `unsteady_plots` including its folder: which files are listed, in which order, which are read in which step, and what is written |
| routines.py | `Plots.v` | `animate_plots` (which frames), `show_nourishment_area`, `show_nourishment_time` (transparency of the heat map) |
| routines.py, `json` | `Json.v` | `json.dump` and `json.load` on walk data (lists of lists of None, ints, floats), character by character |
| spatial.py | `Spatial.v` | `systemwide`, `localized`, `_find_common_indices_info`, `percentile_from_cdf`, `compute_thresholds`, `median_absolute_deviation_filter` |
| particle_track.py | `Interrupt.v` | `run_iteration` as a sequence of single list appends, for interruption between any two of them |
| particle_track.py | `Heap.v` | `walk_data` as shared mutable lists: several `Particles` objects, loaded data, references returned to the caller |
| parallel_routing.py | `Parallel.v` | `run_iter`, `combine_result`, `parallel_routing`, `multiprocessing.Pool.map` as interleavings |
| logging_config.py | `Logging.v` | both functions, and the part of Python's `logging` they touch |

External functions enter as parameters of the model, so theorems hold for every behaviour of them (subject to the hypotheses in the
statement): `sqrt`, `cos`, `arctan2`, `pow` (C library), `gaussian_filter`, `gaussian_kde`, the nearest-neighbour query of `KDTree`,
`matplotlib.path.Path.contains_points`, NumPy's random generator.
NumPy's `argsort`, `nanpercentile`, `linspace`, `arange`, `searchsorted`, `cumsum`, `nansum`, `interp1d(kind='previous')` are transcribed from their documented algorithms.

## 3. Not modelled

* Drawing (matplotlib), file output, the contents of flow-field files (which files are read in which order is modelled, C98), the decimal digits of a float in a JSON file, progress bars, warning and log texts, `modelParams` beyond being a record of optional fields.
* `plot_spatial`: drawing only (its returned list of axes is always empty, see section 6).
* Python integer/float dtype mixing and int32 overflow of cell indices; NumPy's summation order on CPUs where it is not the portable one: `nansum` of nine numbers adds
  ((0+1)+(2+3))+((4+5)+(6+7))+8 as in NumPy's unrolled pairwise sum, and `cumsum` adds from left to right.
* Arrays of different shapes being mixed (NumPy broadcast errors), apart from the cases the constructor checks.
* The weight array and the generator state after an interruption in the middle of `run_iteration` (the walk data are modelled, C88; for `generate_particles` see C33).
* Sharing of lists in the models of sessions (`ParticleTrack.v`, `SpecApi.v`): there walk data are values. Heap.v models the lists as objects; C90_objects_alone_partial is the bridge
  (previous walk data not in use: every object is in a state of a session, so all theorems about sessions hold), and C89-C91 say what happens otherwise.
* `deltaRCM`-specific warnings; attributes of `params` that the constructor does not read.

## 4. Trusted base

* Coq 8.16.1's kernel (and `coqchk`), and the adequacy of the model: that the Gallina definitions say what the cited Python lines do, and that the theorem statements
  say what the English properties say.
* No axiom is added.  `Print Assumptions` gives three classes of theorems; the axioms are those of the standard library's real numbers, which Flocq's
  proofs about binary64 use (and which no exact-arithmetic theorem needs):

**(f)** `ClassicalDedekindReals.sig_forall_dec`, `ClassicalDedekindReals.sig_not_dec`, `Classical_Prop.classic`, `FunctionalExtensionality.functional_extensionality_dep`:

C01_weights_never_negative, C02_interior_has_a_move, C02_ring_has_none, C03_weight_leads_to_wet_cell, C04_documented_formula, C05_gamma_one_ignores_discharge, C05_gamma_zero_ignores_stage, C05_theta_zero_only_wetness, C05_constructor_gamma_one, C05_constructor_gamma_zero, C07_random_pick_positive, C07_zero_draw_refuted, C09_steepest_is_maximal, C09_pit_refuted, C10_every_history, C10_random_pick_repeatable, C10_steep_descent_repeatable, C11_one_cell_per_step, C12_sticky_edges, C13_never_leaves_domain, C14_ring_seed_refuted, C14_ring_seed_partial, C15_origin_absorbing, C16_travels_on_wet_cells, C17_times_never_decrease, C19_rectangular, C20_run_appends, C20_run_to_appends, C20_generate_keeps, C21_no_standing_still, C22_tracked_variables_agree, C23_run_conserves, C23_run_to_conserves, C23_generate_order, C24_at_most_one_step, C25_stopping_rule, C26_bounded, C26_returns, C27_warning_incomplete_refuted, C27_warning_partial, C28_empty_run_partial, C28_empty_target_run_refuted, C29_exact_round_robin, C29_accepted, C30_random_in_lists, C31_pairs_refuted, C31_pairs_partial, C32_aligned_partial, C32_misaligned_refuted, C33_rejected_changes_nothing, C33_accepted_is_generate, C34_accepted_parameters, C35_velocity_floor, C35_inverse_velocity, C36_depth_clean, C36_stage_clean, C37_default_cell_types, C38_rotated_discharge, C38_rotated_velocity, C39_construct_twice_partial, C39_velocity_input_refuted, C41_exposure_defined, C41_never_negative, C43_own_path_only, C43_concatenation, C43_still_inside, C44_index_round_trip, C45_refuted, C46_counts, C46_normalised, C46_percentile_defined, C47_refuted, C47_clip100_partial, C48_mean_stay, C48_clipped, C49_slice, C49_reachable, C50_nearest, C51_tracked_variable_refuted, C51_tracked_variable_steady_refuted, C51_no_variable_refuted, C51_plot_state_partial, C51_steady_partial, C56_every_schedule, C56_never_fails, C56_no_iterations_fail, C57_workers_repeat_refuted, C57_same_worker_partial, C58_systemwide, C58_localized, C58_coarse_resolution_refuted, C59_refuted, C60_localized_le_systemwide, C62_quantiles, C62_ordered, C62_maps, C63_cdf, C63_smoothed, C64_quantiles, C65_thresholds_partial, C65_refuted, C67_history, C67_append_only, C67_completes, C67_no_steps, C70_documented_history, C71_run_never_raises, C71_target_run_never_raises, C75_reproducible, C75_results, C79_step_draws, C79_no_interaction, C79_target_draws, C79_later_particles_do_not_matter, C80_travel_paths, C84_locality, C88_interrupted_partial, C88_all_appends, C88_interrupted_refuted, C89_returned_data_partial, C89_returned_data_refuted, C90_objects_alone_partial, C90_call_partial, C90_objects_alone_refuted, C91_histories_partial, C91_own_data, C91_histories_refuted, C92_larger_region, C92_longer_history, C92_session, C94_better_direction_more_weight, C96_steepest_descent_deterministic, C98_listing_order, C98_one_label_per_step, C98_time_order_partial, C98_padded_numbers_partial, C98_time_order_refuted, C99_npz_refuted, C99_same_folder_partial, C101_depth_given, C101_stage_and_topography_partial, C101_rounding_refuted, C102_same_paths, C102_calibration, C103_velocity_or_discharge, C105_run_again_partial, C105_short_steps_refuted, C107_rounding_refuted, C108_recorded_time_partial, C109_area_from_counts, C109_particle_order, C109_batches, C110_rounding_refuted, C115_steady_flow, C118_downhill, C119_down_or_along, C120_missing_variable, C120_earlier_values_lost, C112_saved_data_partial, C112_float32_refuted, C113_continue_from_file, C22_named_grids, C121_past_states_stay, C122_past_times_stay, C123_clear_is_a_new_start, C124_assigned_data_partial, C124_more_particles_refuted, C124_fewer_particles_refuted, C124_left_behind

**(c)** Closed under the global context (no axioms):

C06_shares_sum_to_one, C06_discharge_scale, C08_pick_interval, C08_interval_length, C18_travel_time_formula, C18_no_diffusion, C25_close_to_target, C29_balanced, C41_trapezoid, C42_complement, C42_additive, C44_index_round_trip_exact, C44_half_cell, C45_lower_strip_refuted, C45_right_strip_refuted, C45_in_range_partial, C47_signal_kept_iff, C50_nearest_exact, C52_counts_proportional, C52_within_one, C52_errors, C53_column_behaviour_partial, C53_column_fails_refuted, C53_column_misallocates_refuted, C54_between, C54_constant, C54_linear, C54_nearest, C55_extent, C58_covered_partial, C59_multiplicity_partial, C61_definition, C61_within_window, C61_constant, C61_small_threshold_refuted, C66_levels_partial, C66_documented_accepted, C66_undocumented_refuted, C66_verbose, C66_one_handler, C66_handlers_kept, C68_frames, C68_colours_aligned, C68_segments, C69_uniform_seed_choice, C72_crop_keeps_numbers_partial, C72_regular_partial, C72_no_boundary, C72_crop_interior_refuted, C73_longer_series_refuted, C73_exact_length_partial, C74_too_few_points_refuted, C74_enough_points_partial, C76_refuted, C76_without_outliers_partial, C76_separated_partial, C77_first_handler_partial, C77_later_handler_refuted, C78_last_level, C81_last_plot_refuted, C81_frames_partial, C82_opacity, C83_path_probability, C85_clock, C86_cell_size, C87_datum, C93_positive_iff_along_flow, C95_symmetric_weights, C95_symmetric_paths, C97_flow_speed, C100_agreement, C103_speeds_exact, C103_wet_cells, C103_thin_film_refuted, C104_no_faster_than_the_flow_partial, C104_no_slower_than_the_flow_partial, C104_any_direction_refuted, C105_already_past_partial, C105_past_target_refuted, C106_stop_on_the_way_partial, C106_short_steps_refuted, C107_later_target_partial, C108_final_position_refuted, C110_particle_order_partial, C111_vertical_unit_partial, C111_same_paths_partial, C111_discharges_refuted, C114_levee_partial, C114_default_types, C114_corners_refuted, C114_deep_land_refuted, C116_theta_favours_depth, C117_gamma_favours_slope

**(r)** `ClassicalDedekindReals.sig_forall_dec`, `ClassicalDedekindReals.sig_not_dec`, `FunctionalExtensionality.functional_extensionality_dep`:

C40_tables, C40_inertia_iff_projected

**(e)** `FunctionalExtensionality.functional_extensionality_dep`:

C101_stage_and_topography_exact

* No kernel check is switched off, no `Admitted`, no plugin beyond Coq's own tactics, no functor or module type defined here.
* The examples are computed with `vm_compute`; `coqchk` rechecks them without the virtual machine.
* Against weak statements: the model is mutated outside this directory and the theorems are expected to fail (`seeded/LOG.jsonl`).

## 5. Properties

"partial" means: the property as stated in `properties.jsonl` is false of the code; the manifest lists a theorem `..._refuted` with a concrete reachable counterexample and
theorems `..._partial` that say exactly what holds instead.

| id | property | status | theorems | file | note |
|----|----------|--------|----------|------|------|
| C01 | Routing weights are never negative | proved | `C01_weights_never_negative` | P_Weights.v |  |
| C02 | Every interior cell offers a move; border cells offer none | proved | `C02_interior_has_a_move`, `C02_ring_has_none` | P_Weights.v |  |
| C03 | Positive weight only towards wet, non-land cells, except at dead ends | proved | `C03_weight_leads_to_wet_cell` | P_Weights.v |  |
| C04 | The vectorised weight code computes the documented per-cell formula | proved | `C04_documented_formula` | P_Weights.v |  |
| C05 | Meaning of the extreme gamma and theta values | proved | `C05_gamma_one_ignores_discharge`, `C05_gamma_zero_ignores_stage`, `C05_theta_zero_only_wetness`, `C05_constructor_gamma_one`, `C05_constructor_gamma_zero` | P_Weights.v | Hypothesis: the slope (inertia) terms at the cell are finite (0 times NaN or infinity is NaN in IEEE arithmetic). The constructor theorems compare two parameter sets that differ only in the arrays named. |
| C06 | Normalised weight components | proved | `C06_shares_sum_to_one`, `C06_discharge_scale` | P_Weights.v |  |
| C07 | The random pick never selects a zero-weight direction | partial | `C07_random_pick_positive`, `C07_zero_draw_refuted` | P_Pick.v | True for every draw that does not map exactly to cumulative weight 0; C07_zero_draw_refuted gives the exceptional draw (0.0) on which direction 0 is chosen although its weight is 0. |
| C08 | Directions are picked with probability proportional to weight | proved | `C08_pick_interval`, `C08_interval_length` | P_Pick.v |  |
| C09 | Steepest descent picks a maximal-weight neighbour | partial | `C09_steepest_is_maximal`, `C09_pit_refuted` | P_Pick.v | Maximality holds whenever some weight is positive; in a pit every weight is zeroed and direction 0 is returned (C09_pit_refuted). |
| C10 | Visiting a cell does not change later routing from it | proved | `C10_every_history`, `C10_random_pick_repeatable`, `C10_steep_descent_repeatable` | P_Data.v, P_Pick.v |  |
| C11 | A step moves a particle by at most one cell | proved | `C11_one_cell_per_step` | P_Motion.v |  |
| C12 | Sticky edges | proved | `C12_sticky_edges` | P_Motion.v |  |
| C13 | Particles never leave the domain | proved | `C13_never_leaves_domain` | P_Motion.v |  |
| C14 | Positions on the outer ring are handled safely | partial | `C14_ring_seed_refuted`, `C14_ring_seed_partial` | P_Motion.v | False for seeds in row 0 / column 0 other than (0,0) (C14_ring_seed_refuted: a particle seeded at (0,3) is recorded at row -1). C14_ring_seed_partial covers all other ring cells and the interior. |
| C15 | Cell (0,0) is absorbing | proved | `C15_origin_absorbing` | P_Motion.v |  |
| C16 | Particles travel on wet cells | proved | `C16_travels_on_wet_cells` | P_Motion.v | Draws that map to cumulative weight exactly 0 are excluded (hypothesis clear_draw), as the property says. |
| C17 | Travel times never decrease | proved | `C17_times_never_decrease` | P_Motion.v |  |
| C18 | Travel time of a step follows the documented formula and diffusion bound | proved | `C18_travel_time_formula`, `C18_no_diffusion` | P_Motion.v | C18_no_diffusion: with diff_coeff = 0 two steps between the same cells take equally long, whatever the random streams of the two sessions. |
| C19 | Walk data stays rectangular per particle | proved | `C19_rectangular` | P_Data.v |  |
| C20 | History is append-only | proved | `C20_run_appends`, `C20_run_to_appends`, `C20_generate_keeps` | P_Data.v |  |
| C21 | No standing-still records | proved | `C21_no_standing_still` | P_Data.v |  |
| C22 | Tracked variables agree with the grids | proved | `C22_tracked_variables_agree`, `C22_named_grids` | P_Data.v, P_Fields.v |  |
| C23 | Particles are conserved | proved | `C23_run_conserves`, `C23_run_to_conserves`, `C23_generate_order` | P_Data.v |  |
| C24 | One call, at most one step | proved | `C24_at_most_one_step` | P_Data.v |  |
| C25 | Target time stopping rule | proved | `C25_stopping_rule`, `C25_close_to_target` | P_Data.v |  |
| C26 | Target time runs are bounded by max_iter | proved | `C26_bounded`, `C26_returns` | P_Data.v |  |
| C27 | All particles that hit the iteration limit are reported | partial | `C27_warning_incomplete_refuted`, `C27_warning_partial` | P_Data.v | False of the code: _iter_particles is reset for every particle (C27_warning_incomplete_refuted). C27_warning_partial says exactly what the list contains. |
| C28 | A run with no particles is harmless | partial | `C28_empty_run_partial`, `C28_empty_target_run_refuted` | P_Data.v | False with a target time (UnboundLocalError, C28_empty_target_run_refuted, for every such session); true without one. |
| C29 | Exact seeding is round-robin and balanced | proved | `C29_exact_round_robin`, `C29_balanced`, `C29_accepted` | P_Seed.v |  |
| C30 | Random seeding stays inside the seed lists | proved | `C30_random_in_lists` | P_Seed.v |  |
| C31 | Random seeding uses the listed (x,y) pairs | partial | `C31_pairs_refuted`, `C31_pairs_partial` | P_Seed.v | False of the code: rows and columns are drawn independently (C31_pairs_refuted). It holds when all seeds lie in one row or one column (C31_pairs_partial); in general only C30 holds. |
| C32 | Continuing from earlier walk data keeps tracked variables aligned | partial | `C32_aligned_partial`, `C32_misaligned_refuted` | P_Seed.v | False if previous_walk_data lacks a tracked variable (C32_misaligned_refuted); true if it lists every tracked variable. |
| C33 | Rejected seeding requests change nothing | proved | `C33_rejected_changes_nothing`, `C33_accepted_is_generate` | P_Seed.v |  |
| C34 | Which parameter sets are accepted | proved | `C34_accepted_parameters` | P_Init.v |  |
| C35 | Velocity floor | proved | `C35_velocity_floor`, `C35_inverse_velocity` | P_Init.v |  |
| C36 | Depth and stage cleaning | proved | `C36_depth_clean`, `C36_stage_clean` | P_Init.v |  |
| C37 | Default cell types | proved | `C37_default_cell_types` | P_Init.v |  |
| C38 | Coordinate convention of non-DeltaRCM input | proved | `C38_rotated_discharge`, `C38_rotated_velocity` | P_Init.v |  |
| C39 | Constructing twice from one parameter object gives the same result | partial | `C39_construct_twice_partial`, `C39_velocity_input_refuted` | P_Init.v | True for discharge input; false for velocity input, where construction writes the 1e-8 floor into the caller's array (C39_velocity_input_refuted). |
| C40 | D8 geometry tables are mutually consistent | proved | `C40_tables`, `C40_inertia_iff_projected` | P_Init.v | Over the real numbers (the tables are irrational); the second theorem is about the model's inertia and projected-distance formulas instantiated at R. |
| C41 | Exposure time is the trapezoidal occupation time of the region | proved | `C41_exposure_defined`, `C41_trapezoid`, `C41_never_negative` | P_Post.v |  |
| C42 | Exposure times of a region and its complement add up | proved | `C42_complement`, `C42_additive` | P_Post.v |  |
| C43 | Exposure time is computed per particle | proved | `C43_own_path_only`, `C43_concatenation`, `C43_still_inside` | P_Post.v |  |
| C44 | Coordinate conversion round trip | proved | `C44_index_round_trip`, `C44_index_round_trip_exact`, `C44_half_cell` | P_Coord.v | binary64 for cell sizes in [2^-100,2^100] and origins within 2^40 cells; exact arithmetic without bounds. |
| C45 | Coordinates inside the raster map to valid indices | partial | `C45_refuted`, `C45_lower_strip_refuted`, `C45_right_strip_refuted`, `C45_in_range_partial` | P_Coord.v | False of the code: the lower half of the bottom row maps to row L and the right half of the last column to column W (refuted theorems). C45_in_range_partial gives the exact strip where it holds. |
| C46 | Nourishment area counts every recorded visit | proved | `C46_counts`, `C46_normalised`, `C46_percentile_defined` | P_Nour.v |  |
| C47 | Nourishment area never loses the whole signal | partial | `C47_refuted`, `C47_signal_kept_iff`, `C47_clip100_partial` | P_Nour.v | False of the code: if fewer than 0.5% of the cells were visited, the clip value is 0 and the whole map becomes NaN (C47_refuted). C47_signal_kept_iff says exactly when, C47_clip100_partial covers clip=100. |
| C48 | Nourishment time is the mean residence time per visit | proved | `C48_mean_stay`, `C48_clipped` | P_Nour.v |  |
| C49 | get_state returns a consistent slice | proved | `C49_slice`, `C49_reachable` | P_Rout.v | For all rectangular walk data (C49_reachable: every walk produced by the API is). On ragged data get_state may append twice for a particle; outside the property. |
| C50 | get_time_state returns the record nearest in time | proved | `C50_nearest`, `C50_nearest_exact` | P_Rout.v | binary64: nearest by the computed distance; exact arithmetic: by the true distance. |
| C51 | Plot routines accept any walk data | partial | `C51_tracked_variable_refuted`, `C51_tracked_variable_steady_refuted`, `C51_no_variable_refuted`, `C51_plot_state_partial`, `C51_steady_partial` | P_Rout.v | False of the code: get_state returns 4 components if a variable is tracked and 3 otherwise; the routines unpack a fixed number (three refuted theorems, each for all walk data of one kind). The partial theorems cover walk data without tracked variables. |
| C52 | Flux-proportional seeding distributes exactly N particles proportionally | proved | `C52_counts_proportional`, `C52_within_one`, `C52_errors` | P_Grid.v |  |
| C53 | Flux-proportional seeding accepts a column of discharges | partial | `C53_column_behaviour_partial`, `C53_column_fails_refuted`, `C53_column_misallocates_refuted` | P_Grid.v | False of the code: argsort works along the last axis, of length 1. C53_column_behaviour_partial is the exact behaviour; the refuted theorems give a failing call and a misallocation. |
| C54 | Inverse-distance gridding is a weighted average | proved | `C54_between`, `C54_constant`, `C54_linear`, `C54_nearest` | P_Grid.v | Exact arithmetic; the KD-tree is any function with finite non-negative distances and valid indices. |
| C55 | Gridding covers the data extent with the documented orientation | proved | `C55_extent` | P_Grid.v |  |
| C56 | Parallel routing returns all particles, in task order, for every schedule | proved | `C56_every_schedule`, `C56_never_fails`, `C56_no_iterations_fail` | P_Par.v | For every execution of the pool model (tasks taken in order by free workers, delivered in any order, arbitrary worker streams). C56_no_iterations_fail: with num_iter = 0 the call always raises UnboundLocalError. |
| C57 | Parallel workers walk independently | partial | `C57_workers_repeat_refuted`, `C57_same_worker_partial` | P_Par.v | False of the code with the 'fork' start method: workers inherit the caller's generator, so blocks computed by different workers are identical (C57_workers_repeat_refuted, for every such execution). C57_same_worker_partial: tasks of one worker use disjoint segments and depend on nothing else. |
| C58 | Chunked exposure covers every particle | partial | `C58_systemwide`, `C58_localized`, `C58_covered_partial`, `C58_coarse_resolution_refuted` | P_Spat.v | Length and contents hold for every resolution > 0. 'Every particle is assigned to a chunk' is false for a resolution larger than the grid (no chunk at all, C58_coarse_resolution_refuted) and proved otherwise (C58_covered_partial). |
| C59 | Each particle belongs to exactly one chunk | partial | `C59_refuted`, `C59_multiplicity_partial` | P_Spat.v | False of the code: the bounds are inclusive on both sides (C59_refuted). C59_multiplicity_partial says exactly how many chunks count a particle. |
| C60 | Localized exposure never exceeds system-wide exposure | proved | `C60_localized_le_systemwide` | P_Spat.v | binary64; finite non-decreasing times. |
| C61 | MAD filter stays within the local data range | proved | `C61_definition`, `C61_within_window`, `C61_constant`, `C61_small_threshold_refuted` | P_Spat.v | Exact arithmetic, thresholds >= 1 as the property says (C61_small_threshold_refuted: below 1 a cell can be lost). |
| C62 | Percentile times are ordered | proved | `C62_quantiles`, `C62_ordered`, `C62_maps` | P_Spat.v | binary64; the density estimate is any function with non-negative values of positive finite total; exposure times are zero, NaN or at least 2^-900 s (rounding near the underflow threshold would break np.linspace). |
| C63 | The exposure-time CDF is a CDF | proved | `C63_cdf`, `C63_smoothed` | P_Etd.v | binary64; finite non-negative final travel times, at most one exposure time per particle, up to 2^53 particles (2^30 for the smoothed curve, whose end time must be 0 or at least 2^-960 s). |
| C64 | Exposure thresholds E50/E75/E90 are quantiles | proved | `C64_quantiles` | P_Etd.v | binary64, up to 2^30 particles (the 1e-12 slack in the code would matter beyond that order of magnitude). |
| C65 | plot_exposure_time_thresholds works when few particles exit | partial | `C65_thresholds_partial`, `C65_refuted` | P_Etd.v | False of the code: with fewer than nine tenths of the particles leaving, the routine always ends with an IndexError (C65_refuted and the second half of C65_thresholds_partial); otherwise it completes and reports the first grid times. |
| C66 | Logging set-up | partial | `C66_levels_partial`, `C66_documented_accepted`, `C66_undocumented_refuted`, `C66_verbose`, `C66_one_handler`, `C66_handlers_kept` | P_Log.v | ASCII level names. 'Exactly the documented names' is false: NOTSET, WARN and FATAL are accepted too, and '_STYLES' raises TypeError instead of ValueError (C66_undocumented_refuted, C66_levels_partial). One handler at most and the verbose mapping are proved in full. |
| C67 | Unsteady runs keep one continuous history | proved | `C67_history`, `C67_append_only`, `C67_completes`, `C67_no_steps` | P_Unst.v | binary64; flow fields given as four arrays of one shape (the file reading is not modelled), seeds that the code handles safely. Completion is proved for fields with finite weights and a timestep of at least 2^-900 s; with no field or no step the routine ends with an UnboundLocalError (C67_no_steps). |
| C68 | Snake plot tails | proved | `C68_frames`, `C68_colours_aligned`, `C68_segments` | P_Rout.v | interval >= 1, tail_length >= 0. |
| C69 | Random seeding is uniform over the listed locations | proved | `C69_uniform_seed_choice` | P_Seed.v |  |
| C70 | Every recorded step is a documented random-walk step | proved | `C70_documented_history` | P_Walk.v |  |
| C71 | Runs never raise | proved | `C71_run_never_raises`, `C71_target_run_never_raises` | P_Walk.v |  |
| C72 | Cropping removes only all-NaN borders | partial | `C72_crop_keeps_numbers_partial`, `C72_regular_partial`, `C72_no_boundary`, `C72_crop_interior_refuted` | P_Grid.v | False of the code: interior all-NaN rows/columns are removed too (C72_crop_interior_refuted). C72_crop_keeps_numbers_partial says exactly what is kept; C72_regular_partial: if the rows and the columns with a number are contiguous, only borders are removed. |
| C73 | Flux-proportional seeding returns one count per seeding step | partial | `C73_longer_series_refuted`, `C73_exact_length_partial` | P_Grid.v | False of the code: a longer series is not cut (C73_longer_series_refuted). True when num_steps is the length of the series. |
| C74 | Gridding works for every non-empty point set | partial | `C74_too_few_points_refuted`, `C74_enough_points_partial` | P_Grid.v | False of the code for fewer points than k (IndexError, for every such call); true otherwise. |
| C75 | Runs are reproducible | proved | `C75_reproducible`, `C75_results` | P_Par.v |  |
| C76 | Smoothing keeps the order of the percentile maps | partial | `C76_refuted`, `C76_without_outliers_partial`, `C76_separated_partial` | P_Spat.v | False of the code, with the default window and threshold (C76_refuted). The order is kept if neither window has an outlier, or if the two windows do not overlap in value. |
| C77 | A logging handler given by the user is used | partial | `C77_first_handler_partial`, `C77_later_handler_refuted` | P_Log.v | False of the code: only the first handler is installed, later ones are ignored (C77_later_handler_refuted). |
| C78 | The last accepted level is in force | proved | `C78_last_level` | P_Log.v |  |
| C79 | Particles do not interact, and each random number has one role | proved | `C79_step_draws`, `C79_no_interaction`, `C79_target_draws`, `C79_later_particles_do_not_matter` | P_Draws.v | binary64, any generator stream with values in [0,1). |
| C80 | Travel paths show the recorded positions | proved | `C80_travel_paths` | P_Plots.v | binary64 walk data with rows of equal lengths (as every session produces, C04). The figure itself is not modelled. |
| C81 | animate_plots uses the plots start_val to end_val | partial | `C81_last_plot_refuted`, `C81_frames_partial` | P_Plots.v | False of the code: the plot end_val is never a frame (C81_last_plot_refuted); the frames are start_val..end_val-1 (C81_frames_partial). |
| C82 | Heat-map transparency follows the values | proved | `C82_opacity` | P_Plots.v | Exact arithmetic. matplotlib's Normalize(0, vmax, clip=True) and NumPy's nanpercentile are modelled; colour maps are not. |
| C83 | A path's probability is the product of the documented shares | proved | `C83_path_probability` | P_Path.v | Exact arithmetic; random routing (no steepest descent). Hypothesis: the routing weights are finite (C05). |
| C84 | A run depends only on the flow field around its particles | proved | `C84_locality` | P_Local.v | binary64. The second run is proved to succeed, not assumed; its set-up only has to be accepted by the constructor. |
| C85 | Only time differences matter | proved | `C85_clock` | P_Shift.v | Exact arithmetic, no hypothesis on the set-up; both runs fail with the same error or both succeed. |
| C86 | Travel times are proportional to the cell size | proved | `C86_cell_size` | P_Shift.v | Exact arithmetic; programs without target times. Holds for every parameter set, also for those the constructor rejects. |
| C87 | The vertical datum does not matter | proved | `C87_datum` | P_Shift.v | Exact arithmetic; every parameter set and program. Holds for both ways of giving the stage (stage grid, or topography plus depth). |
| C88 | An interrupted run leaves usable walk data | partial | `C88_interrupted_partial`, `C88_all_appends`, `C88_interrupted_refuted` | P_Interrupt.v | Equal length is refuted: stopping after the first append of a record always leaves one more x index than y indices. Proved for every session, call and stopping point: earlier records intact, only one particle affected, lists shorter by at most one, everything kept is an initial part of what the complete call returns, and cutting to the shortest list recovers complete records. Modelled: the walk data as a sequence of appends; not the weight array or the generator state at that moment. |
| C89 | Walk data returned by a call keep their contents | partial | `C89_returned_data_partial`, `C89_returned_data_refuted` | P_Heap.v | Refuted: the dictionary returned by a run reads, after the next run, like the one returned by that run (C89_returned_data_refuted, all sessions). Proved for every program on any number of objects, with any sharing and with exceptions: entries are only added at the ends of lists, none changed or lost. |
| C90 | Particles objects do not influence each other | partial | `C90_objects_alone_partial`, `C90_call_partial`, `C90_objects_alone_refuted` | P_Heap.v | Refuted: if object j gets the walk data of object i as previous_walk_data, every run of j moves the particles of i (C90_objects_alone_refuted, all sessions). Proved for all programs in which data passed on are not in use: each object behaves as in a session of its own. Modelled: inner lists as heap objects; the generator as one stream per object. |
| C91 | Histories stay random walks whichever walk data are passed on | partial | `C91_histories_partial`, `C91_own_data`, `C91_histories_refuted` | P_Heap.v | Refuted: an object given its own walk data records two moves per step in every history, here the same cell twice in a row. C91_own_data: particle and copy share all lists for ever. Proved when the data passed on are not in use. |
| C92 | Exposure time grows with the region and with the run | proved | `C92_larger_region`, `C92_longer_history`, `C92_session` | P_Expo.v |  |
| C93 | A step takes time exactly when it goes along the flow | proved | `C93_positive_iff_along_flow` | P_Time.v |  |
| C94 | A better direction never gets less weight | proved | `C94_better_direction_more_weight` | P_Mono.v |  |
| C95 | Routing has no preferred orientation | proved | `C95_symmetric_weights`, `C95_symmetric_paths` | P_Sym.v |  |
| C96 | Steepest descent without diffusion does not depend on the random numbers | proved | `C96_steepest_descent_deterministic` | P_Steep.v |  |
| C97 | A faster flow gives the same paths in proportionally shorter times | proved | `C97_flow_speed` | P_Fast.v | Exact arithmetic, runs without target times; the math library is any with sqrt(k*k*x) = k*sqrt(x) and scale-free directions. Where a velocity is raised to the floor of 1e-8 the times do not scale, hence the above_floor hypothesis. |
| C98 | An unsteady run uses the flow fields in the order of time | partial | `C98_listing_order`, `C98_one_label_per_step`, `C98_time_order_partial`, `C98_padded_numbers_partial`, `C98_time_order_refuted` | P_Files.v | False of the code for unpadded numbers (C98_time_order_refuted: with 1..10 the second step uses timestep 10, whatever the files contain). Proved: the listing order is irrelevant (every folder), each step combines the files of one label, labels that ascend as strings, e.g. padded numbers, are used in order; the run is then exactly that of C67. |
| C99 | The results of an unsteady run may be saved in the folder of the flow fields | partial | `C99_npz_refuted`, `C99_same_folder_partial` | P_Files.v | False for npz (C99_npz_refuted: the run always fails, every folder). Proved for csv and npy (more depth files than entries that begin with data). What np.load and np.loadtxt return is a parameter; reading a folder raises. |
| C100 | Exposure times and nourishment times agree | proved | `C100_agreement` | P_Agree.v | Exact arithmetic. Where nourishment_time reports NaN (no visit or zero mean) the cell counts as zero. |
| C101 | Any two of depth, stage and topography describe the same set-up | partial | `C101_depth_given`, `C101_stage_and_topography_exact`, `C101_stage_and_topography_partial`, `C101_rounding_refuted` | P_Route.v | Depth with topography = depth with stage, bit for bit. Stage with topography agrees exactly in exact arithmetic, and with doubles wherever topography + depth - topography is not rounded; otherwise refuted: 0.1 m of water at 100 m above datum becomes land (C101_rounding_refuted). |
| C102 | Routes depend only on depth, stage, discharge and cell types | proved | `C102_same_paths`, `C102_calibration` | P_Route.v | binary64, bit for bit; programs without target time (a target time stops particles by their times). Diffusion has to be on in both or off in both because it consumes random numbers. |
| C103 | Velocities and discharges are interchangeable | partial | `C103_velocity_or_discharge`, `C103_speeds_exact`, `C103_wet_cells`, `C103_thin_film_refuted` | P_Route.v | Paths: binary64, DeltaRCM coordinates (C38 carries over the other convention), and exact arithmetic in both conventions. Speeds: exact arithmetic, any library with homogeneous sqrt; the factor is h^2/(h^2+1e-8). Refuted for thin films if dry_depth is set lower: at 0.1 mm the speed is halved (C103_thin_film_refuted). |
| C104 | Particles do not outrun the flow | partial | `C104_no_faster_than_the_flow_partial`, `C104_no_slower_than_the_flow_partial`, `C104_any_direction_refuted` | P_Speed.v | Exact arithmetic; one flow direction (flow_towards: cos of the angle to the flow is the component of the step along it). In any other direction false: steps across or against the flow take no time (C104_any_direction_refuted). |
| C105 | Running to a time that has been reached moves nothing | partial | `C105_run_again_partial`, `C105_short_steps_refuted`, `C105_already_past_partial`, `C105_past_target_refuted` | P_Split.v | binary64 for the same target, exact arithmetic for an earlier one. Proved if the last step took more than 0.1 s (same target) or some time (earlier target), the run was not cut off by max_iter and the particle does not happen to pick its own cell. Refuted without the first condition: C105_short_steps_refuted, C105_past_target_refuted. |
| C106 | Stopping on the way does not change a particle's path | partial | `C106_stop_on_the_way_partial`, `C106_short_steps_refuted` | P_Split.v | Exact arithmetic, one particle (with several the random numbers are consumed in another order), under the conditions of C105 at the stop. Refuted for steps shorter than 0.1 s (C106_short_steps_refuted). |
| C107 | Later target times show later records | partial | `C107_later_target_partial`, `C107_rounding_refuted` | P_Slice.v | Exact arithmetic. With doubles false: distances to a far target may be rounded to the same number (C107_rounding_refuted). |
| C108 | The state at a recorded time is the recorded one | partial | `C108_recorded_time_partial`, `C108_final_position_refuted` | P_Slice.v | binary64: the returned time is the one asked for; the returned record is the first with that time, hence the recorded position if no earlier record has the same time. False otherwise (C108_final_position_refuted: after a step that took no time). |
| C109 | The nourishment area map depends only on how often each cell was recorded | proved | `C109_area_from_counts`, `C109_particle_order`, `C109_batches` | P_Order.v | binary64. Also for batches put together in either order (counts add up). |
| C110 | The map of mean residence times does not depend on the order of the particles | partial | `C110_particle_order_partial`, `C110_rounding_refuted` | P_Order.v | Exact arithmetic. With doubles false in the last digits (C110_rounding_refuted: three particles resting 1, 2^-53, 2^-53 in one cell). |
| C111 | The vertical unit does not matter | partial | `C111_vertical_unit_partial`, `C111_same_paths_partial`, `C111_discharges_refuted` | P_Units.v | Exact arithmetic. Times: velocities given (C111_vertical_unit_partial: also both runs fail alike). Paths: also with discharges, without target times (C111_same_paths_partial). Refuted for the times with discharges: in kilometres they differ (C111_discharges_refuted). |
| C112 | Saved results can be read back | partial | `C112_saved_data_partial`, `C112_float32_refuted` | P_Save.v | binary64. The writer and the reader of json are modelled character by character (Json.v), except how a finite float is written: any format that can be read back exactly and uses number characters only (float_text). False for tracked grids that are not float64 (C112_float32_refuted, every session with a particle). |
| C113 | A simulation can be continued from a saved file | proved | `C113_continue_from_file` | P_Save.v | binary64; any later stream and generator position. The loaded dictionary needs not be the same Python object. |
| C114 | Levees hold | partial | `C114_levee_partial`, `C114_default_types`, `C114_corners_refuted`, `C114_deep_land_refuted` | P_Barrier.v | Any number type with the stated laws (binary64 and exact). False for lines of land cells touching at corners (C114_corners_refuted), and for land cells deeper than dry_depth next to a dead end (C114_deep_land_refuted). C114_default_types: with the default cell types land is never deep. |
| C115 | An unsteady run in a steady flow is an ordinary run | proved | `C115_steady_flow` | P_Steady.v | binary64, every completed run (C67_completes says when runs complete). |
| C116 | A larger theta makes deeper cells more likely | proved | `C116_theta_favours_depth` | P_Theta.v | exact arithmetic; the power function is a parameter with the stated law. |
| C117 | A larger gamma shifts the choice from the flow to the water surface slope | proved | `C117_gamma_favours_slope` | P_Gamma.v | exact arithmetic; dead ends are covered by C05 and C16. |
| C118 | With gamma = 1 particles run down the water surface and come to rest | proved | `C118_downhill` | P_Down.v | binary64. Draws that map to cumulative weight exactly 0 are excluded (hypothesis clear_draw), as the property says. |
| C119 | No step goes up the water surface and against the flow at once | proved | `C119_down_or_along` | P_Down.v | binary64. Draws that map to cumulative weight exactly 0 are excluded (hypothesis clear_draw), as the property says. |
| C120 | Continuing from walk data that lack a tracked variable | proved | `C120_missing_variable`, `C120_earlier_values_lost` | P_Vars.v | binary64, run_iteration() without a target time. The walk data are those of a session with any set of variables left out. |
| C121 | What get_state shows of an iteration stays | proved | `C121_past_states_stay` | P_Past.v | binary64; iteration numbers from 0; continuations without clear_walk_data and without previous_walk_data (with the latter the particle numbers shift, C23). |
| C122 | What get_time_state shows of a time that was reached stays | proved | `C122_past_times_stay` | P_Past2.v | binary64; set-ups in which times do not decrease (C17) and finite times; continuations as in C121. |
| C123 | clear_walk_data gives a new start | proved | `C123_clear_is_a_new_start` | P_Clear.v | binary64; the number of particles remembered by the object is compared once particles exist (clear_walk_data does not reset it; no call reads it before generate_particles sets it). |
| C124 | Going on from walk data assigned to an object | partial | `C124_assigned_data_partial`, `C124_more_particles_refuted`, `C124_fewer_particles_refuted`, `C124_left_behind` | P_Assign.v | binary64. Holds if no particles were generated on the receiving object before, or as many as the data have. Otherwise false: with more, run_iteration raises IndexError; with fewer, the other particles are silently not moved, even after clear_walk_data. |

## 6. Findings about the code

Found by trying to prove the property; each is backed by a theorem in the manifest unless marked (text).

* C07 A draw of exactly 0 selects direction 0 (north-west) whatever its weight, since `searchsorted` is called with side 'left'.
* C09 With `steepest_descent`, in a pit every weight is zeroed and direction 0 is returned.
* C14 A particle seeded in row 0 or column 0 can be recorded at index -1 (negative indices wrap to the opposite side).
* C27 `_iter_particles` is reset for every particle, so the warning about `max_iter` only ever speaks about the last particle.
* C28 `run_iteration(target_time=...)` with zero particles raises UnboundLocalError.
* C31 With `method='random'`, rows and columns are drawn independently, so a particle can start at a location that is not in the list.
* C32 Previous walk data that lack a tracked variable give misaligned optional lists.
* C39 With velocity input, construction writes the 1e-8 velocity floor into the caller's array.
* C45 `coord2ind` of a coordinate in the outer half row or column gives an index outside the raster.
* C47 If fewer than 0.5% of the cells were visited, `nourishment_area` normalises by 0 and the whole map is NaN.
* C51 `get_state` returns three or four components depending on the tracked variables; with ragged data an entry can be appended twice.
* C53 `flux_proportional_seeding` with a column vector sorts along the wrong axis and does not preserve the total.
* C56 `parallel_routing(num_iter=0)` raises UnboundLocalError; particles already stored in the object are duplicated once per core.
* C57 Forked workers inherit the same generator state and produce identical walks.
* C58 A resolution factor larger than the grid gives no chunk at all.
* C59 Chunk bounds are inclusive on both sides, so a start on an inner chunk boundary is counted in two or four chunks.
* C61 A threshold below 1 can turn a cell into NaN.
* C65 When fewer than nine tenths of the particles have left, `plot_exposure_time_thresholds` raises IndexError.
* C66 `setup_logging` accepts the undocumented names NOTSET, WARN, FATAL; "_STYLES" raises TypeError, "BASIC_FORMAT" ValueError.
* C67 `steady_plots`, `time_plots`, `unsteady_plots` without iterations raise UnboundLocalError.
* C72 Cropping deletes interior all-NaN rows and columns, so the raster is no longer regularly spaced.
* C73 `flux_proportional_seeding` does not cut a discharge series that is longer than `num_steps`.
* C74 `unstruct2grid` with more neighbours than points raises IndexError.
* C76 The outlier filter does not preserve the order of the percentile maps.
* C77 Only the first logging handler is installed; a handler passed later is ignored.
* C81 `animate_plots(start_val, end_val)` leaves out the plot `end_val`, which is documented as the last one used.
* C88 `run_iteration` appends x, y, time and tracked variables one after the other to the stored lists. Interrupting it between two appends (Ctrl-C in a notebook) leaves lists of unequal length; the next call then pairs the new row with the old column.
* C89 `run_iteration` returns a dictionary whose lists are the stored ones: a result kept by the user changes with the next call.
* C90 `previous_walk_data` is used without copying: two objects that got the same data append to the same lists.
* C91 Giving an object its own walk data as `previous_walk_data` makes copies that share lists; every run then writes two moves into each history.
* C98 `unsteady_plots` sorts file names as strings: with unpadded numbers (`depth1` ... `depth10`) the second step uses timestep 10. Padded numbers are used in the right order.
* C99 `unsteady_plots` creates a folder `data` in its output folder before listing `data*` in the input folder. If they are the same folder, npz input fails: the new folder is taken for the first file.
* C101 Stage and topography instead of depth: 100.1 - 100 is less than 0.1, so a cell with exactly 0.1 m of water (the default `dry_depth`) is land if stage and topography are given and water if the depth is given.
* C103 Velocities computed from discharges are `q*h/(h**2 + 1e-8)`, not `q/h`: the error is below one part in a million for depths of 0.1 m or more, but half the speed in a film of 0.1 mm (reachable if `dry_depth` is set lower).
* C104 The travel time of a step counts only its component along the flow, so a step across or against the flow takes no time at all: there is no bound on how far a particle gets per second in such directions (`C104_any_direction_refuted`).
* C105, C106 Inside a call of `run_iteration(target_time)` the next step is estimated to take max(0.1, last step) seconds, at the start of a call the last step alone. With steps shorter than 0.1 s (small cells, fast flow) a second call with the same target takes further steps, past the target (`C105_short_steps_refuted`), and stopping on the way changes the result (`C106_short_steps_refuted`). After a step that took no time even a run to the present time moves the particle (`C105_past_target_refuted`): the estimate is then 0 and `<=`-comparison counts as progress.
* C107 With doubles `get_time_state` may return an earlier record for a later target time: records closer together than the rounding of their distance to the target count as equally near, and the first is taken (`C107_rounding_refuted`; harmless in practice, the records are then less than 1e-15 of the distance apart).
* C108 After steps that took no time (across or against the flow), `get_time_state` at a particle's final time, and `plot_state` with that target time, show the position before those steps, not the final position (`C108_final_position_refuted`).
* C110 With doubles `nourishment_time` depends on the order of the particles in the last digits, because the residence times of a cell are added in that order (`C110_rounding_refuted`; harmless in practice).
* C111 If discharges are given, travel times depend on the unit of the depths: the guard against division by zero in `q * depth / (depth^2 + 1e-8)` has a unit (`C111_discharges_refuted`: with depths in kilometres instead of metres, the times differ by 0.3 %). With velocities they do not.
* C112 Tracking a variable whose grid is not of type float64 (a float32 raster, an integer grid) makes `json.dump` raise a TypeError, after the whole run, and leaves a truncated file (`C112_float32_refuted`: every session with a particle). Grid elements are NumPy scalars, of which only `float64` is a Python float.
* C114 A one-cell-wide diagonal line of land cells does not stop particles: a step to the diagonal neighbour passes between two land cells that touch at a corner (`C114_corners_refuted`). Land cells given by the user that are deeper than dry_depth are entered from dead ends (`C114_deep_land_refuted`); with the default cell types this cannot happen.
* C120 run_iteration() without a target time returns a dictionary with the tracked variables that walk_data lack, but does not store it (pt:715-720): the next call starts them with None again, so all but the last recorded value are lost (`C120_earlier_values_lost`); with a target time the dictionary is stored.
* C124 The number of particles is remembered apart from the data (pt:667-668) and clear_walk_data does not reset it (pt:446-448): when walk data are assigned to a used object, run_iteration raises IndexError if they have fewer particles than before (`C124_more_particles_refuted`) and silently leaves the surplus particles standing if they have more (`C124_fewer_particles_refuted`, in general `C124_left_behind`).
* (text) Saving walk data as JSON raises TypeError if a tracked variable comes from a float32 array (`np.float32` values).
* (text) The user's `particle_variables` list is extended in place by the constructor.
* (text) `generate_particles` consumes random numbers even when it fails later.
* (text) `draw_travel_path` takes its colours from the generator that drives the walks, so drawing between two runs changes the second one (C80 counts the numbers).
* (text) In `snake_plots` the frame labelled 'Iteration ii' ends at record ii-1.
* (text) `plot_spatial` returns a list `axes` that is never filled.
* (text) `np.linspace` near the underflow threshold is not monotone; C62 and C67 exclude it by a hypothesis of 2^-900.

## 7. Plan written before the proofs

`[f64]` proved in IEEE double arithmetic, `[exact]` in exact arithmetic, `[gen]` for every number semantics
satisfying the listed laws (both instances are proved to satisfy them).

| id | plan |
|----|------|
| C01 | [gen] pointwise sign argument through every vectorised statement of `make_weight` |
| C02 | [gen] dead-end rule + "a positive nansum has a positive summand"; borders by `clear_borders` |
| C03 | [gen] pointwise case analysis on the two masks |
| C04 | [gen] refinement: vectorised model = independently written per-cell specification |
| C05 | [gen]/[exact] two runs compared pointwise |
| C06 | [exact] algebra on nine-element sums |
| C07 | [gen] binary search on a non-decreasing cumulative sum; `_refuted` witness for a draw of exactly 0 |
| C08 | [exact] the draws selecting k form an interval of length w_k/sum |
| C09 | [gen] argmax argument; `_refuted` witness for a pit |
| C10 | [gen] idempotence of the in-place edit |
| C11, C12, C15 | [gen] one-step lemmas lifted to all histories by induction over API calls |
| C13 | [gen] invariant over all API call sequences |
| C14 | `_refuted` by a computed witness (wrap-around from row 0) |
| C16 | [gen] C03+C07 lifted to histories |
| C17 | [f64] rounding-aware monotonicity, lifted to histories |
| C18 | [exact] algebra |
| C19-C24 | [gen] invariants over all API call sequences |
| C25, C26 | [gen] loop invariant of the target-time loop |
| C27, C28 | `_refuted` by computed witnesses |
| C29, C30 | [gen] list lemmas on the seeding code |
| C31, C32 | `_refuted` by computed witnesses; `_partial` for seeds in one row or column, and for complete data |
| C33 | [gen] the model returns the state only on success; stated on the state-passing interface |
| C34-C38 | [gen] case analysis of the constructor |
| C39 | [gen] proved for discharge input; `_refuted` for velocity input |
| C40 | real-number theorem about the tables |
| C41-C43 | [exact] induction over the history (sign and bounds) |
| C44 | [exact] rounding to nearest of an exact half-integer offset; C45 `_refuted` at the lower edge |
| C46-C48 | [exact] counting arguments; C47 `_refuted` |
| C49-C50 | [gen] indexing and argmin |
| C51 | `_refuted`: tuple sizes differ |
| C52 | [exact] largest-remainder argument; C53 `_refuted` |
| C54-C55 | [exact] convexity; ceil arithmetic |
| C56 | all schedules as interleavings of task executions; C57 `_refuted` for inherited generator state |
| C58-C60 | [gen]/[exact] integer arithmetic on chunk bounds; C59 `_refuted` |
| C61-C62 | [gen] order statistics |
| C63-C65 | [exact] sorting/counting; C65 `_refuted` |
| C66 | state machine over call histories |
| C67 | [gen] reuse of C19-C23 over a list of flow fields |
| C68 | list arithmetic |
| C69 | [exact] the draws that choose entry k form an interval of length 1/n |
| C70, C71 | [gen] invariant over all API call sequences; progress lemmas for every partial operation |
| C72-C74 | `_refuted` by computed witnesses, exact description of what holds |
| C75 | [gen] two runs compared step by step on streams that agree where they are read |
| C76, C77 | `_refuted` by computed witnesses; C76 `_partial` for windows without outliers and for separated windows |
| C78 | state machine over call histories |
| C79 | [gen] exact stream positions through both passes of the stepper |
| C80 | [gen] induction over the followed particles, slices by step |
| C81 | refuted for every pair of numbers; frames listed exactly |
| C82 | [xq] nanpercentile of the map, Normalize and clip are monotone |
| C83 | [xq] induction along the path; each step uses C79 for the stream position and C04 for the interval of draws |
| C84 | [gen] make_weight, get_weight, travel times and tracked variables read only the 3x3 block of a cell; relation between the two runs kept by every call |
| C85 | [xq] simulation: every call of the shifted program matches the original one (ProofSim: one generic simulation between two set-ups, instantiated three times) |
| C86 | [xq] same simulation with step lengths and times scaled |
| C87 | [xq] same simulation with the stage raised; make_weight only uses differences of the stage away from the border |
| C88 | [f64] run_iteration rewritten as the list of its appends (Interrupt.v), proved to refine run_step and run_target; every initial part of the list consists of complete records and a part of one; equal lengths refuted |
| C89-C91 | [f64] walk data as dictionaries of locations in a heap of lists (Heap.v), the same code again with appends in place; proved to refine the value model when the lists are apart (simulation over all programs of calls on any number of objects); sharing refutes the full properties |
| C92 | [f64] exposure sums compared step by step (et_acc) for nested masks and for a history that extends another; lifted to sessions with further runs |
| C93 | [xq] the travel-time formula of C18, sign of its factors |
| C94 | [f64] order of rounded products and quotients, then of shares, base weights and the dead-end rule |
| C95 | [xq] images of parameter sets under the generators of the symmetries of a raster; sums and maxima over permuted directions; paths via the shares of C83 |
| C96 | [f64] two sessions with different streams: every step and every journey to a target time picks the unique maximum, which C23's pick lemma identifies; induction over the calls |
| C97 | [exact] the constructor on the scaled flow gives scaled velocities and inverse speeds and the same weights wherever the speed is above the floor; one step, then induction over the runs. `homogeneous` asks sqrt(k²x) = k sqrt x and scale-free directions of the library; the example builds such a library with exact arithmetic |
| C98 | [gen] `sorted` as insertion sort on strings; sorted lists of permutations are equal (listing order); prefix + label sorts like label (one label per step); equally long digit strings sort like numbers; `_refuted` for 1..10 |
| C99 | [gen] the folders `figs` and `data` are created before the listing: `_refuted` for npz, unchanged listings for csv and npy |
| C100 | [exact] the trapezoidal sum regrouped by records; sums over records and over cells exchanged; C41 and C48 connect both sides to the code |
| C101 | [both] equality of the objects the constructor builds (functional extensionality for the arrays); the third pair exactly, with doubles under the hypothesis of no rounding, refuted otherwise |
| C102 | [f64] equal grids give equal weights at all interior cells; simulation by induction over the program with C79's account of which random number decides what |
| C103 | [both] the constructor yields the same discharge grids, hence C102; closed form of the speed ratio in exact arithmetic, its bound, and a film that violates it |
| C104 | [exact] each step's time is its length along the flow times the mean of two inverse speeds; the bounds on one step are added up by induction over the records; a step across the flow as counterexample in other directions |
| C105 | [f64, exact] the journey relation of C79 characterises where a run ends: the particle is closest to the target, at rest, or out of iterations; a second journey from there is empty. Counterexamples with short steps and after a step without time |
| C106 | [exact] a journey to t1 followed by one to t2 is glued into one journey to t2 (going on towards t1 implies going on towards t2); journeys are functions of the random numbers. Counterexample with short steps |
| C107 | [exact; f64 refuted] first minimum of the distances to the target: a crossing of two choices contradicts the order of the times. With doubles a far target makes distances equal by rounding |
| C108 | [f64] the distance of a record to its own time is zero, and binary64 subtraction is zero only for equal numbers (gradual underflow); first minimum. Counterexample: a session whose last step took no time |
| C109 | [f64] the visit counts are sums over the particles, so equal for permuted particles; every later step (percentile, clip, filter, NaN, normalisation) looks at the values of the raster only |
| C110 | [exact; f64 refuted] the residence times of a cell are permuted; exact addition is commutative and associative (NaN and infinities included) |
| C111 | [exact] the simulation framework of C85-C87, C97 with weights that agree up to a common positive factor: normalised weights, cumulated sums and steepest descent choose the same neighbour; paths with discharges via C102's framework |
| C112 | [binary64] the reader inverts the writer: induction over lists of lists, number characters end at the separators; the dictionary determines the walk data |
| C113 | [binary64] C112, and: `generate_particles` with no new particles installs the loaded data; a simulation between the two objects (the weight array may differ, the picks do not, C10) |
| C114 | [both] induction over the history from C11 and C16; at a dead end the deepest neighbour is at least as deep as the wet cell the particle stands on |
| C115 | [binary64] induction over the fields with C113's continuation theorem at each change of objects |
| C116 | [exact] each weight is a positive power of the depth times a factor free of theta; dead ends are the same for both; cross-multiplied odds, summed over the nine directions |
| C117 | [exact] cross-multiplied odds of two convex combinations: the difference is (gamma2 - gamma1) times (s_k t_m - s_m t_k) |
| C118 | [binary64] the sign of a rounded difference and quotient is that of the exact one; so a positive weight with gamma = 1 needs a lower level; strictly falling levels give distinct cells (pigeonhole) |
| C119 | [binary64] if neither the slope nor the projected discharge of a direction is positive, its weight is a zero or NaN |
| C120 | [binary64, heap model] the missing variables get fresh lists; the appends of a step do not depend on the contents of the variables, so they are the appends of the session with all variables; induction over the calls |
| C121 | [binary64] induction over the further calls: every history is extended at its end or kept (C20); the slice of C49 at an index inside the old part |
| C122 | [binary64] records that are added are not nearer to a target time already reached, also after rounding (monotone subtraction), so the first nearest record is the old one |
| C123 | [binary64] the weights of a used object agree with new ones up to the normalisation done at every pick, which is idempotent (C10); the remembered number of particles is set by generate_particles before it is read |
| C124 | [binary64] a remembered number of 0 means all particles; weights as in C123; the two other cases are refuted, by a general theorem (IndexError) and by a concrete session |
