{"id": "C01", "title": "Routing weights are never negative", "statement": "After Particles(params) with 0<=gamma<=1, no entry of the routing-weight array is negative, whatever the depth, stage, discharge and cell-type arrays contain (including NaN, infinities, negative depths).", "quantifier": "all input arrays of any shape with IEEE double entries, all theta, all gamma in [0,1], all math-library pow results that are not negative on positive depths", "why_tests_cant": "The domain of inputs (every array, every double, every draw) is infinite; tests sample a handful of small arrays.", "anchors": ["dorado/lagrangian_walker.py: make_weight, big_sliding_window, clear_borders"]}
{"id": "C02", "title": "Every interior cell offers a move; border cells offer none", "statement": "For every cell that is not on the outer ring of the grid the nine routing weights contain at least one strictly positive entry; for every cell on the outer ring all nine weights are exactly zero.", "quantifier": "all grids of any shape, all inputs of the weight computation with NaN-free depth", "why_tests_cant": "The domain of inputs (every array, every double, every draw) is infinite; tests sample a handful of small arrays.", "anchors": ["dorado/lagrangian_walker.py: make_weight, clear_borders"]}
{"id": "C03", "title": "Positive weight only towards wet, non-land cells, except at dead ends", "statement": "If direction k at an interior cell has a positive (or NaN) weight then the neighbour in direction k is deeper than dry_depth and is not land (type 2), or the cell is a dead end and the neighbour is (one of) the deepest of the nine cells.", "quantifier": "all interior cells, directions and input arrays", "why_tests_cant": "The domain of inputs (every array, every double, every draw) is infinite; tests sample a handful of small arrays.", "anchors": ["dorado/lagrangian_walker.py: make_weight"]}
{"id": "C04", "title": "The vectorised weight code computes the documented per-cell formula", "statement": "For every interior cell and direction k, the weight equals depth^theta * (gamma*normalised positive water-surface slope + (1-gamma)*normalised positive discharge projection) for the neighbour reached by the step table entry k (row + jwalk[k], column + iwalk[k]), zero if that neighbour is dry or land, and the deepest-cell rule at dead ends.", "quantifier": "all grid shapes, cells, directions, input arrays, both numeric semantics", "why_tests_cant": "A wrong slice or axis order shows only for particular asymmetric data; tests compare a few symmetric 3x3 and 5x5 grids.", "anchors": ["dorado/lagrangian_walker.py: big_sliding_window, tile_local_array, tile_domain_array, make_weight, calculate_new_ind"]}
{"id": "C05", "title": "Meaning of the extreme gamma and theta values", "statement": "With gamma = 1 the weights do not depend on the discharge arrays; with gamma = 0 they do not depend on the stage array (around wet cells); with theta = 0 they depend on depth only through which cells are wet and which cell is deepest.", "quantifier": "all pairs of discharge (stage, depth) arrays", "why_tests_cant": "The domain of inputs (every array, every double, every draw) is infinite; tests sample a handful of small arrays.", "anchors": ["dorado/lagrangian_walker.py: make_weight", "dorado/particle_track.py: modelParams docstring"]}
{"id": "C06", "title": "Normalised weight components", "statement": "In exact arithmetic the slope component and the inertia component of the weights each sum to one whenever any of their entries is positive, and rescaling the discharge field by a positive factor leaves the weights unchanged.", "quantifier": "all cells, all finite inputs, all positive factors", "why_tests_cant": "The domain of inputs (every array, every double, every draw) is infinite; tests sample a handful of small arrays.", "anchors": ["dorado/lagrangian_walker.py: make_weight"]}
{"id": "C07", "title": "The random pick never selects a zero-weight direction", "statement": "For every weight vector without negative entries whose total is finite and positive, and every draw that does not map to exactly zero, random_pick returns an index into the vector whose weight is positive.", "quantifier": "all weight vectors of any length, all draws in [0,1), IEEE double arithmetic including cumulative rounding", "why_tests_cant": "The domain of inputs (every array, every double, every draw) is infinite; tests sample a handful of small arrays.", "anchors": ["dorado/lagrangian_walker.py: random_pick"]}
{"id": "C08", "title": "Directions are picked with probability proportional to weight", "statement": "In exact arithmetic the set of draws u in [0,1) for which random_pick returns k is exactly the interval between consecutive normalised cumulative weights, whose length is weight[k]/sum(weights).", "quantifier": "all non-negative weight vectors, all draws", "why_tests_cant": "A probability law cannot be established by sampling a seeded generator.", "anchors": ["dorado/lagrangian_walker.py: random_pick"]}
{"id": "C09", "title": "Steepest descent picks a maximal-weight neighbour", "statement": "With steepest_descent=True the direction chosen at an interior cell is one of the eight neighbours and carries the maximal weight of the cell, unless the particle's own cell is the unique maximum.", "quantifier": "all weight vectors, all draws", "why_tests_cant": "The domain of inputs (every array, every double, every draw) is infinite; tests sample a handful of small arrays.", "anchors": ["dorado/lagrangian_walker.py: steep_descent, get_weight"]}
{"id": "C10", "title": "Visiting a cell does not change later routing from it", "statement": "The in-place edits that random_pick and steep_descent make to the stored weights do not change which direction a later visit with a given draw would choose.", "quantifier": "all cells, all visit histories, all draws", "why_tests_cant": "It must hold after every sequence of API calls and every random stream; tests run one or two short sequences with a fixed seed.", "anchors": ["dorado/lagrangian_walker.py: random_pick, steep_descent, get_weight"]}
{"id": "C11", "title": "A step moves a particle by at most one cell", "statement": "With the default step tables, each recorded position of a particle differs from the previous one by at most one row and one column.", "quantifier": "all states, all draws, all histories", "why_tests_cant": "It must hold after every sequence of API calls and every random stream; tests run one or two short sequences with a fixed seed.", "anchors": ["dorado/lagrangian_walker.py: particle_stepper, calculate_new_ind", "dorado/particle_track.py: Particles.run_iteration"]}
{"id": "C12", "title": "Sticky edges", "statement": "A particle with an edge cell (type -1) in its 3x3 neighbourhood neither moves nor ages in run_iteration, with or without a target time.", "quantifier": "all cell-type arrays, positions, draws", "why_tests_cant": "It must hold after every sequence of API calls and every random stream; tests run one or two short sequences with a fixed seed.", "anchors": ["dorado/lagrangian_walker.py: check_for_boundary, particle_stepper", "dorado/particle_track.py: Particles.run_iteration"]}
{"id": "C13", "title": "Particles never leave the domain", "statement": "If the outer ring of cell_type is -1 (the default) and all particles are seeded strictly inside it, then after any sequence of generate/run calls every recorded position is strictly inside the ring, so every later grid lookup is in range.", "quantifier": "all grids, all call sequences, all random streams", "why_tests_cant": "It must hold after every sequence of API calls and every random stream; tests run one or two short sequences with a fixed seed.", "anchors": ["dorado/lagrangian_walker.py: particle_stepper, check_for_boundary", "dorado/particle_track.py: Particles.run_iteration"]}
{"id": "C14", "title": "Positions on the outer ring are handled safely", "statement": "A particle seeded on the outer ring stays inside the index range of the grid.", "quantifier": "all ring positions", "why_tests_cant": "One seed position per test; the failing ones are never sampled.", "anchors": ["dorado/lagrangian_walker.py: particle_stepper, check_for_boundary"]}
{"id": "C15", "title": "Cell (0,0) is absorbing", "statement": "A particle located at cell (0,0) never moves and never ages.", "quantifier": "all grids, draws, numbers of iterations", "why_tests_cant": "It must hold after every sequence of API calls and every random stream; tests run one or two short sequences with a fixed seed.", "anchors": ["dorado/lagrangian_walker.py: particle_stepper"]}
{"id": "C16", "title": "Particles travel on wet cells", "statement": "Along every trajectory each newly recorded position is deeper than dry_depth and not land, unless the previous position was a dead end, in which case it is a deepest cell of that neighbourhood (draws that map to exactly zero excluded).", "quantifier": "all histories, all random streams", "why_tests_cant": "It must hold after every sequence of API calls and every random stream; tests run one or two short sequences with a fixed seed.", "anchors": ["dorado/lagrangian_walker.py: make_weight, random_pick, particle_stepper"]}
{"id": "C17", "title": "Travel times never decrease", "statement": "For 0 <= diff_coeff <= 2, along every particle's history travel_times is non-decreasing in IEEE double arithmetic.", "quantifier": "all flow fields, draws, call sequences", "why_tests_cant": "It must hold after every sequence of API calls and every random stream; tests run one or two short sequences with a fixed seed.", "anchors": ["dorado/lagrangian_walker.py: calc_travel_times, particle_stepper", "dorado/particle_track.py: Particles.run_iteration"]}
{"id": "C18", "title": "Travel time of a step follows the documented formula and diffusion bound", "statement": "In exact arithmetic the time of a step is projected_dist*(1/v_old+1/v_new)/2*(1+diff) with |diff| <= diff_coeff/2, so diffusion changes it by at most a factor diff_coeff/2, and with diff_coeff = 0 it does not depend on the random stream.", "quantifier": "all steps, velocities, draws", "why_tests_cant": "The domain of inputs (every array, every double, every draw) is infinite; tests sample a handful of small arrays.", "anchors": ["dorado/lagrangian_walker.py: calc_travel_times"]}
{"id": "C19", "title": "Walk data stays rectangular per particle", "statement": "After any sequence of generate_particles/run_iteration calls, for every particle the lists in xinds, yinds, travel_times and every tracked variable have equal, non-zero length, and all fields list the same number of particles.", "quantifier": "all call sequences, arguments and random streams", "why_tests_cant": "It must hold after every sequence of API calls and every random stream; tests run one or two short sequences with a fixed seed.", "anchors": ["dorado/particle_track.py: Particles.generate_particles, Particles.run_iteration"]}
{"id": "C20", "title": "History is append-only", "statement": "run_iteration and generate_particles never alter or drop an already recorded entry: every particle's old history is a prefix of its new history.", "quantifier": "all call sequences", "why_tests_cant": "It must hold after every sequence of API calls and every random stream; tests run one or two short sequences with a fixed seed.", "anchors": ["dorado/particle_track.py: Particles.generate_particles, Particles.run_iteration"]}
{"id": "C21", "title": "No standing-still records", "statement": "Two consecutive recorded positions of a particle always differ.", "quantifier": "all histories", "why_tests_cant": "It must hold after every sequence of API calls and every random stream; tests run one or two short sequences with a fixed seed.", "anchors": ["dorado/particle_track.py: Particles.run_iteration"]}
{"id": "C22", "title": "Tracked variables agree with the grids", "statement": "Every recorded value of a tracked variable (depth, stage, qx, qy, u, v, roi_flag) equals the corresponding grid value at the position recorded at the same index.", "quantifier": "all histories, all tracked variable lists", "why_tests_cant": "It must hold after every sequence of API calls and every random stream; tests run one or two short sequences with a fixed seed.", "anchors": ["dorado/lagrangian_walker.py: particle_stepper", "dorado/particle_track.py: Particles.generate_particles, Particles.run_iteration"]}
{"id": "C23", "title": "Particles are conserved", "statement": "run_iteration keeps the number and order of particles; generate_particles(n,...) adds exactly n particles after the existing ones (previous_walk_data first, then stored walk data, then new particles).", "quantifier": "all call sequences", "why_tests_cant": "It must hold after every sequence of API calls and every random stream; tests run one or two short sequences with a fixed seed.", "anchors": ["dorado/particle_track.py: Particles.generate_particles, Particles.run_iteration"]}
{"id": "C24", "title": "One call, at most one step", "statement": "run_iteration() without target time appends at most one record to each particle.", "quantifier": "all states", "why_tests_cant": "It must hold after every sequence of API calls and every random stream; tests run one or two short sequences with a fixed seed.", "anchors": ["dorado/particle_track.py: Particles.run_iteration"]}
{"id": "C25", "title": "Target time stopping rule", "statement": "run_iteration(target_time=T) leaves every particle either next to an edge, unable to move, at the iteration limit, or at a time t with |t-T| < |t+d-T| where d is the estimated next step (so t > T - d/2).", "quantifier": "all flow fields, targets, histories", "why_tests_cant": "It must hold after every sequence of API calls and every random stream; tests run one or two short sequences with a fixed seed.", "anchors": ["dorado/particle_track.py: Particles.run_iteration"]}
{"id": "C26", "title": "Target time runs are bounded by max_iter", "statement": "run_iteration(target_time=T, max_iter=m) appends at most max(1,m) records per particle, so it terminates.", "quantifier": "all flow fields, targets, limits", "why_tests_cant": "Non-termination and off-by-one limits appear only for particular flow fields.", "anchors": ["dorado/particle_track.py: Particles.run_iteration"]}
{"id": "C27", "title": "All particles that hit the iteration limit are reported", "statement": "The warning of run_iteration(target_time=...) lists every particle that exceeded max_iter.", "quantifier": "all runs", "why_tests_cant": "It must hold after every sequence of API calls and every random stream; tests run one or two short sequences with a fixed seed.", "anchors": ["dorado/particle_track.py: Particles.run_iteration"]}
{"id": "C28", "title": "A run with no particles is harmless", "statement": "run_iteration on a walk_data with zero particles returns the empty walk data.", "quantifier": "with and without target time", "why_tests_cant": "Edge case depends on loop variable scoping.", "anchors": ["dorado/particle_track.py: Particles.run_iteration"]}
{"id": "C29", "title": "Exact seeding is round-robin and balanced", "statement": "generate_particles(n, xs, ys, method='exact') with equally long non-empty lists places particle i at (xs[i mod m], ys[i mod m]), so each location receives floor(n/m) or ceil(n/m) particles.", "quantifier": "all n >= 0, all lists", "why_tests_cant": "The domain of inputs (every array, every double, every draw) is infinite; tests sample a handful of small arrays.", "anchors": ["dorado/particle_track.py: Particles.generate_particles"]}
{"id": "C30", "title": "Random seeding stays inside the seed lists", "statement": "generate_particles(method='random') places every particle at a row from seed_xloc and a column from seed_yloc, for every random stream.", "quantifier": "all lists, counts, draws", "why_tests_cant": "The domain of inputs (every array, every double, every draw) is infinite; tests sample a handful of small arrays.", "anchors": ["dorado/particle_track.py: Particles.generate_particles", "dorado/lagrangian_walker.py: random_pick_seed"]}
{"id": "C31", "title": "Random seeding uses the listed (x,y) pairs", "statement": "Every particle seeded with method='random' starts at one of the pairs (seed_xloc[i], seed_yloc[i]).", "quantifier": "all lists, draws", "why_tests_cant": "The domain of inputs (every array, every double, every draw) is infinite; tests sample a handful of small arrays.", "anchors": ["dorado/particle_track.py: Particles.generate_particles"]}
{"id": "C32", "title": "Continuing from earlier walk data keeps tracked variables aligned", "statement": "generate_particles(..., previous_walk_data=w) yields walk data in which every tracked variable lists as many particles as xinds.", "quantifier": "all previous walk data", "why_tests_cant": "It must hold after every sequence of API calls and every random stream; tests run one or two short sequences with a fixed seed.", "anchors": ["dorado/particle_track.py: Particles.generate_particles"]}
{"id": "C33", "title": "Rejected seeding requests change nothing", "statement": "If generate_particles raises, the stored walk data and particle count are unchanged.", "quantifier": "all argument values", "why_tests_cant": "The domain of inputs (every array, every double, every draw) is infinite; tests sample a handful of small arrays.", "anchors": ["dorado/particle_track.py: Particles.generate_particles, gen_input_check"]}
{"id": "C34", "title": "Which parameter sets are accepted", "statement": "Particles(params) succeeds exactly if dx is given, at least two of depth/stage/topography are given, and (qx,qy) or (u,v) are given (and roi_grid, if given, has the grid's shape); otherwise it raises ValueError.", "quantifier": "all combinations of given and missing parameters", "why_tests_cant": "The domain of inputs (every array, every double, every draw) is infinite; tests sample a handful of small arrays.", "anchors": ["dorado/particle_track.py: Particles.__init__"]}
{"id": "C35", "title": "Velocity floor", "statement": "After construction the velocity magnitude is at least 1e-8 in every cell and no velocity component is smaller than 1e-8 in magnitude, for every input array, so 1/velocity is always finite and non-negative.", "quantifier": "all inputs including NaN", "why_tests_cant": "The domain of inputs (every array, every double, every draw) is infinite; tests sample a handful of small arrays.", "anchors": ["dorado/particle_track.py: Particles.__init__"]}
{"id": "C36", "title": "Depth and stage cleaning", "statement": "After construction depth contains no NaN; depth computed from stage and topography is never negative; stage is NaN wherever depth is zero and equals the supplied (or topography+depth) value elsewhere.", "quantifier": "all inputs", "why_tests_cant": "The domain of inputs (every array, every double, every draw) is infinite; tests sample a handful of small arrays.", "anchors": ["dorado/particle_track.py: Particles.__init__"]}
{"id": "C37", "title": "Default cell types", "statement": "If cell_type is not given, the outer ring is -1, an interior cell is 2 if depth < dry_depth and 0 otherwise.", "quantifier": "all depth arrays with at least two rows and columns", "why_tests_cant": "The domain of inputs (every array, every double, every draw) is infinite; tests sample a handful of small arrays.", "anchors": ["dorado/particle_track.py: Particles.__init__"]}
{"id": "C38", "title": "Coordinate convention of non-DeltaRCM input", "statement": "Constructing with qx,qy for a general model gives the same particles object as constructing with model='DeltaRCM' and the rotated discharge (-qy, qx).", "quantifier": "all arrays", "why_tests_cant": "The domain of inputs (every array, every double, every draw) is infinite; tests sample a handful of small arrays.", "anchors": ["dorado/particle_track.py: Particles.__init__"]}
{"id": "C39", "title": "Constructing twice from one parameter object gives the same result", "statement": "Particles(params) followed by Particles(params) yields the same fields, although construction writes into the caller's arrays.", "quantifier": "all parameter objects", "why_tests_cant": "Depends on which arrays are aliased; tests build each object once or never compare.", "anchors": ["dorado/particle_track.py: Particles.__init__"]}
{"id": "C40", "title": "D8 geometry tables are mutually consistent", "statement": "For the eight neighbour directions, iwalk/jwalk are the column/row offsets, ivec/jvec are those offsets divided by the distance table, and the angle table satisfies cos(angle)=ivec, sin(angle)=-jvec; hence a direction has positive inertial weight exactly if a step along it has positive projected distance.", "quantifier": "all directions and all discharge vectors", "why_tests_cant": "A sign error in one of six 3x3 tables affects only some directions.", "anchors": ["dorado/particle_track.py: Particles.__init__", "dorado/lagrangian_walker.py: calc_travel_times, make_weight"]}
{"id": "C41", "title": "Exposure time is the trapezoidal occupation time of the region", "statement": "For a binary region, exposure_time of a particle equals the sum over its steps of dt*(in_before+in_after)/2; it lies between 0 and the total elapsed time when times are non-decreasing.", "quantifier": "all walk data, all regions", "why_tests_cant": "The domain of inputs (every array, every double, every draw) is infinite; tests sample a handful of small arrays.", "anchors": ["dorado/particle_track.py: exposure_time"]}
{"id": "C42", "title": "Exposure times of a region and its complement add up", "statement": "exposure_time over a region plus exposure_time over its complement equals the elapsed time of each particle, and it is additive over disjoint regions.", "quantifier": "all walk data, regions (exact arithmetic)", "why_tests_cant": "The domain of inputs (every array, every double, every draw) is infinite; tests sample a handful of small arrays.", "anchors": ["dorado/particle_track.py: exposure_time"]}
{"id": "C43", "title": "Exposure time is computed per particle", "statement": "The i-th exposure time depends only on particle i's own history; concatenating walk data concatenates results; the reported 'still in ROI' list is exactly the particles with more than one record whose last position is in the region.", "quantifier": "all walk data", "why_tests_cant": "The domain of inputs (every array, every double, every draw) is infinite; tests sample a handful of small arrays.", "anchors": ["dorado/particle_track.py: exposure_time"]}
{"id": "C44", "title": "Coordinate conversion round trip", "statement": "coord2ind applied to the coordinates produced by ind2coord returns the original indices; ind2coord of coord2ind is within half a cell of the original coordinates.", "quantifier": "all indices, origins, positive cell sizes", "why_tests_cant": "The domain of inputs (every array, every double, every draw) is infinite; tests sample a handful of small arrays.", "anchors": ["dorado/particle_track.py: coord2ind, ind2coord"]}
{"id": "C45", "title": "Coordinates inside the raster map to valid indices", "statement": "coord2ind of any point inside the raster extent returns a row in [0,L) and a column in [0,W).", "quantifier": "all points of the extent", "why_tests_cant": "The domain of inputs (every array, every double, every draw) is infinite; tests sample a handful of small arrays.", "anchors": ["dorado/particle_track.py: coord2ind"]}
{"id": "C46", "title": "Nourishment area counts every recorded visit", "statement": "Before clipping, the visit counts sum to the number of recorded positions and each cell's count is the number of records at that cell; the result (sigma=0) is NaN exactly at cells never visited and otherwise lies in (0,1] with maximum 1.", "quantifier": "all walk data, shapes, clip percentiles with positive clip value", "why_tests_cant": "The domain of inputs (every array, every double, every draw) is infinite; tests sample a handful of small arrays.", "anchors": ["dorado/particle_track.py: nourishment_area"]}
{"id": "C47", "title": "Nourishment area never loses the whole signal", "statement": "If some position was recorded, nourishment_area returns at least one non-NaN cell for the default clip percentile.", "quantifier": "all walk data and shapes", "why_tests_cant": "The domain of inputs (every array, every double, every draw) is infinite; tests sample a handful of small arrays.", "anchors": ["dorado/particle_track.py: nourishment_area"]}
{"id": "C48", "title": "Nourishment time is the mean residence time per visit", "statement": "With sigma=0 and clip=100 nourishment_time at a cell is the average, over interior records at that cell, of half the previous plus half the next time step, NaN where that average is zero or there is none.", "quantifier": "all walk data", "why_tests_cant": "The domain of inputs (every array, every double, every draw) is infinite; tests sample a handful of small arrays.", "anchors": ["dorado/particle_track.py: nourishment_time"]}
{"id": "C49", "title": "get_state returns a consistent slice", "statement": "get_state(walk, n) returns one entry per particle for each field, taken at record n of that particle, or at its last record if it has none.", "quantifier": "all rectangular walk data, all integers n", "why_tests_cant": "The domain of inputs (every array, every double, every draw) is infinite; tests sample a handful of small arrays.", "anchors": ["dorado/routines.py: get_state"]}
{"id": "C50", "title": "get_time_state returns the record nearest in time", "statement": "get_time_state(walk, T) returns for each particle the first record minimising |t-T|.", "quantifier": "all rectangular walk data, all T", "why_tests_cant": "The domain of inputs (every array, every double, every draw) is infinite; tests sample a handful of small arrays.", "anchors": ["dorado/routines.py: get_time_state"]}
{"id": "C51", "title": "Plot routines accept any walk data", "statement": "Every routine that unpacks get_state/get_time_state works for walk data with and without tracked variables.", "quantifier": "all walk data dictionaries", "why_tests_cant": "Each test uses one kind of dictionary per routine.", "anchors": ["dorado/routines.py: get_state, plot_exposure_time, plot_exposure_time_thresholds, plot_state, steady_plots"]}
{"id": "C52", "title": "Flux-proportional seeding distributes exactly N particles proportionally", "statement": "flux_proportional_seeding returns non-negative counts that sum to N_total, each within one of N_total*|Q_i|/sum|Q|, giving the extra particles to the largest remainders.", "quantifier": "all discharge series with non-zero sum, all N_total >= 0 (exact arithmetic)", "why_tests_cant": "The domain of inputs (every array, every double, every draw) is infinite; tests sample a handful of small arrays.", "anchors": ["dorado/particle_track.py: flux_proportional_seeding"]}
{"id": "C53", "title": "Flux-proportional seeding accepts a column of discharges", "statement": "The same holds when Q is given as rows = timesteps, one column, as documented.", "quantifier": "all column arrays", "why_tests_cant": "The only test uses data whose ideal counts are whole numbers.", "anchors": ["dorado/particle_track.py: flux_proportional_seeding"]}
{"id": "C54", "title": "Inverse-distance gridding is a weighted average", "statement": "Every value produced by unstruct2grid's interpolation lies between the smallest and largest of the k nearest data values used, constants are reproduced, and the map is linear in the data.", "quantifier": "all point sets, data, k >= 2", "why_tests_cant": "The domain of inputs (every array, every double, every draw) is infinite; tests sample a handful of small arrays.", "anchors": ["dorado/particle_track.py: unstruct2grid"]}
{"id": "C55", "title": "Gridding covers the data extent with the documented orientation", "statement": "The output of unstruct2grid has ceil(extent/cellsize)+1 rows and columns, covers all data points, and row 0 is the northernmost.", "quantifier": "all point sets, cell sizes", "why_tests_cant": "The domain of inputs (every array, every double, every draw) is infinite; tests sample a handful of small arrays.", "anchors": ["dorado/particle_track.py: unstruct2grid"]}
{"id": "C56", "title": "Parallel routing returns all particles, in task order, for every schedule", "statement": "parallel_routing(..., num_cores=c) returns, for every assignment of tasks to worker processes and every completion order, walk data with c*(n+Np) particles (n the number of particles the object already holds, 0 for a new one): the concatenation, in task order, of the per-task results, each task seeding Np particles and moving every particle by at most num_iter steps; no schedule makes the call fail when num_iter >= 1.", "quantifier": "all schedules, all core counts, num_iter >= 1", "why_tests_cant": "Schedules are chosen by the OS.", "anchors": ["dorado/parallel_routing.py: parallel_routing, combine_result, run_iter"]}
{"id": "C57", "title": "Parallel workers walk independently", "statement": "Walks computed by different cores are driven by different random draws.", "quantifier": "all schedules", "why_tests_cant": "Needs reasoning about generator state inherited by workers.", "anchors": ["dorado/parallel_routing.py: parallel_routing, run_iter"]}
{"id": "C58", "title": "Chunked exposure covers every particle", "statement": "In systemwide/localized every particle that starts inside the grid is assigned to at least one chunk, and the number of chunks is (rows//res)*(cols//res), matching the reshape of compute_thresholds.", "quantifier": "all grids, resolutions, walk data", "why_tests_cant": "The domain of inputs (every array, every double, every draw) is infinite; tests sample a handful of small arrays.", "anchors": ["dorado/spatial.py: systemwide, localized, _find_common_indices_info, compute_thresholds"]}
{"id": "C59", "title": "Each particle belongs to exactly one chunk", "statement": "No particle is counted in two chunks.", "quantifier": "all start positions", "why_tests_cant": "Boundary starts are rarely tested.", "anchors": ["dorado/spatial.py: _find_common_indices_info"]}
{"id": "C60", "title": "Localized exposure never exceeds system-wide exposure", "statement": "For every chunk and particle the localized exposure time is at most the system-wide exposure time.", "quantifier": "all walk data with non-decreasing times", "why_tests_cant": "The domain of inputs (every array, every double, every draw) is infinite; tests sample a handful of small arrays.", "anchors": ["dorado/spatial.py: localized, systemwide"]}
{"id": "C61", "title": "MAD filter stays within the local data range", "statement": "Each non-NaN output of the median-absolute-deviation filter lies between the minimum and maximum of the non-NaN window values; NaN cells stay NaN; a constant map is unchanged.", "quantifier": "all arrays, window sizes, thresholds >= 1", "why_tests_cant": "The domain of inputs (every array, every double, every draw) is infinite; tests sample a handful of small arrays.", "anchors": ["dorado/spatial.py: median_absolute_deviation_filter"]}
{"id": "C62", "title": "Percentile times are ordered", "statement": "For every chunk E50 <= E75 <= E90 before smoothing.", "quantifier": "all exposure samples, all density estimates with positive values", "why_tests_cant": "The domain of inputs (every array, every double, every draw) is infinite; tests sample a handful of small arrays.", "anchors": ["dorado/spatial.py: compute_thresholds, percentile_from_cdf"]}
{"id": "C63", "title": "The exposure-time CDF is a CDF", "statement": "The curve built by plot_exposure_time has non-decreasing times and non-decreasing fractions from 0 to (included particles)/N <= 1.", "quantifier": "all exposure lists and end times", "why_tests_cant": "The domain of inputs (every array, every double, every draw) is infinite; tests sample a handful of small arrays.", "anchors": ["dorado/routines.py: plot_exposure_time"]}
{"id": "C64", "title": "Exposure thresholds E50/E75/E90 are quantiles", "statement": "The reported E_p is the smallest recorded time by which at least the fraction p of all particles has left, and 'not reached' is reported exactly if no such time exists.", "quantifier": "all exposure lists", "why_tests_cant": "The domain of inputs (every array, every double, every draw) is infinite; tests sample a handful of small arrays.", "anchors": ["dorado/routines.py: plot_exposure_time"]}
{"id": "C65", "title": "plot_exposure_time_thresholds works when few particles exit", "statement": "The threshold plot completes for every exposure list.", "quantifier": "all exposure lists", "why_tests_cant": "The domain of inputs (every array, every double, every draw) is infinite; tests sample a handful of small arrays.", "anchors": ["dorado/routines.py: plot_exposure_time_thresholds"]}
{"id": "C66", "title": "Logging set-up", "statement": "setup_logging accepts exactly the documented level names (any case), installs at most one handler over any call history, and verbose maps to INFO/ERROR and None to no change.", "quantifier": "all call sequences", "why_tests_cant": "It must hold after every sequence of API calls and every random stream; tests run one or two short sequences with a fixed seed.", "anchors": ["dorado/logging_config.py: setup_logging, handle_verbose_deprecation"]}
{"id": "C67", "title": "Unsteady runs keep one continuous history", "statement": "The unsteady driver (new Particles object per flow field, generate_particles(0, previous_walk_data), run to the next target time) conserves particles and only appends to histories.", "quantifier": "all sequences of flow fields", "why_tests_cant": "It must hold after every sequence of API calls and every random stream; tests run one or two short sequences with a fixed seed.", "anchors": ["dorado/routines.py: unsteady_plots"]}
{"id": "C68", "title": "Snake plot tails", "statement": "Every plotted particle contributes exactly tail_length path segments, so the repeating colour list stays aligned, and every segment index is in range.", "quantifier": "all histories, intervals, tail lengths", "why_tests_cant": "The domain of inputs (every array, every double, every draw) is infinite; tests sample a handful of small arrays.", "anchors": ["dorado/routines.py: snake_plots"]}
{"id": "C69", "title": "Random seeding is uniform over the listed locations", "statement": "In exact arithmetic generate_particles(method='random') chooses entry k of an n-entry location list exactly for the generator draws in (k/n,(k+1)/n] (0 included for k=0): every entry has the same share of draws.", "quantifier": "all location lists, all draws in [0,1)", "why_tests_cant": "Uniformity is a statement about all draws; a test sees finitely many.", "anchors": ["dorado/lagrangian_walker.py: random_pick_seed", "dorado/particle_track.py: Particles.generate_particles"]}
{"id": "C70", "title": "Every recorded step is a documented random-walk step", "statement": "In every history that a session can record, each record follows from the one before it by the documented rule: direction chosen from the routing weights by a draw, move by the step table, time increased by the documented travel time; nothing else is ever recorded.", "quantifier": "all standard set-ups, all call sequences, all random streams", "why_tests_cant": "It must hold after every sequence of API calls and every random stream; tests run one or two short sequences with a fixed seed.", "anchors": ["dorado/particle_track.py: Particles.generate_particles, Particles.run_iteration", "dorado/lagrangian_walker.py: particle_stepper, get_weight, calculate_new_ind, check_for_boundary, calc_travel_times"]}
{"id": "C71", "title": "Runs never raise", "statement": "On a standard set-up with finite weight sums and particles seeded at safe positions, run_iteration with or without target time never raises and always terminates.", "quantifier": "all standard set-ups, all call sequences, all random streams, all target times and limits", "why_tests_cant": "It must hold after every sequence of API calls and every random stream; tests run one or two short sequences with a fixed seed.", "anchors": ["dorado/particle_track.py: Particles.run_iteration", "dorado/lagrangian_walker.py: particle_stepper"]}
{"id": "C72", "title": "Cropping removes only all-NaN borders", "statement": "unstruct2grid with a boundary and crop=True removes only rows and columns at the edges of the raster that contain no number, so the remaining raster is still regularly spaced.", "quantifier": "all boundaries, point sets and cell sizes", "why_tests_cant": "The domain of inputs (every array, every double, every draw) is infinite; tests sample a handful of small arrays.", "anchors": ["dorado/particle_track.py: unstruct2grid"]}
{"id": "C73", "title": "Flux-proportional seeding returns one count per seeding step", "statement": "flux_proportional_seeding returns exactly num_steps counts summing to N_total.", "quantifier": "all discharge series at least num_steps long", "why_tests_cant": "The domain of inputs (every array, every double, every draw) is infinite; tests sample a handful of small arrays.", "anchors": ["dorado/particle_track.py: flux_proportional_seeding"]}
{"id": "C74", "title": "Gridding works for every non-empty point set", "statement": "unstruct2grid returns a raster for every non-empty set of points and every k_nearest_neighbors >= 1.", "quantifier": "all point sets, all k", "why_tests_cant": "The domain of inputs (every array, every double, every draw) is infinite; tests sample a handful of small arrays.", "anchors": ["dorado/particle_track.py: unstruct2grid"]}
{"id": "C75", "title": "Runs are reproducible", "statement": "Every sequence of API calls consumes a contiguous segment of the random stream, and repeating it from the same state on a stream with the same values there (e.g. after re-seeding NumPy) gives identical walk data, whatever the other values of the stream are.", "quantifier": "all programs, all states, all streams", "why_tests_cant": "A test compares two runs; it cannot show that no other state influences the result.", "anchors": ["dorado/particle_track.py: generate_particles, run_iteration", "dorado/lagrangian_walker.py: particle_stepper, get_weight, calc_travel_times"]}
{"id": "C76", "title": "Smoothing keeps the order of the percentile maps", "statement": "The maps returned by compute_thresholds satisfy E50 <= E75 <= E90 in every chunk, also after smoothing.", "quantifier": "all percentile maps, window sizes and thresholds", "why_tests_cant": "The domain of inputs (every array, every double, every draw) is infinite; tests sample a handful of small arrays.", "anchors": ["dorado/spatial.py: compute_thresholds, median_absolute_deviation_filter"]}
{"id": "C77", "title": "A logging handler given by the user is used", "statement": "setup_logging(level, handler=h) with a documented level installs h, so that messages of the package go to h, whatever was configured before.", "quantifier": "all call histories, levels and handlers", "why_tests_cant": "It must hold after every sequence of configuration calls, including those made by the deprecated verbose flags; tests call it once in a fresh process.", "anchors": ["dorado/logging_config.py: setup_logging"]}
{"id": "C78", "title": "The last accepted level is in force", "statement": "After any sequence of configuration calls the package logger processes exactly the messages at least as severe as the last documented level that was set; failing calls and verbose=None change nothing.", "quantifier": "all call histories and severities", "why_tests_cant": "It must hold after every sequence of configuration calls; tests check single calls.", "anchors": ["dorado/logging_config.py: setup_logging, handle_verbose_deprecation"]}
{"id": "C79", "title": "Particles do not interact, and each random number has one role", "statement": "One run_iteration draws one direction number for each particle that is not at (0,0), in particle order, and then, with diffusion, one number for each particle that moved; what happens to a particle depends only on its own history and its own two numbers. With a target time each particle uses its own segment of the stream, the segments following each other in particle order, so the first k particles end up the same whatever particles follow them.", "quantifier": "all standard set-ups, reachable states, particle counts, random streams, target times", "why_tests_cant": "Independence of particles must hold for every population and stream; a test compares single runs.", "anchors": ["dorado/particle_track.py: Particles.run_iteration", "dorado/lagrangian_walker.py: particle_stepper, get_weight, calc_travel_times"]}
{"id": "C80", "title": "Travel paths show the recorded positions", "statement": "draw_travel_path draws one line per followed particle, in the order given; the line connects the (column, row) positions of records 0, interval, 2*interval, ... of that particle and no others; each line's colour takes three numbers of NumPy's global generator (the one that drives the walks).", "quantifier": "all walk data, all lists of particle numbers, all positive intervals", "why_tests_cant": "The domain of inputs (every array, every double, every draw) is infinite; tests sample a handful of small arrays.", "anchors": ["dorado/routines.py: draw_travel_path"]}
{"id": "C81", "title": "animate_plots uses the plots start_val to end_val", "statement": "The frames of the animation are the plots start_val, start_val+1, ..., end_val, end_val being the documented last plot to use.", "quantifier": "all pairs of plot numbers", "why_tests_cant": "The domain of inputs (every array, every double, every draw) is infinite; tests sample a handful of small arrays.", "anchors": ["dorado/routines.py: animate_plots"]}
{"id": "C82", "title": "Heat-map transparency follows the values", "statement": "For a map of non-negative numbers (NaN where there is nothing to show), show_nourishment_area and show_nourishment_time do not fail; the opacity of a cell lies between min_alpha and 1, never decreases with the value, and is 1 from the documented percentile of the map on.", "quantifier": "all maps, smoothing parameters and min_alpha values", "why_tests_cant": "The domain of inputs (every array, every double, every draw) is infinite; tests sample a handful of small arrays.", "anchors": ["dorado/routines.py: show_nourishment_area, show_nourishment_time"]}
{"id": "C83", "title": "A path's probability is the product of the documented shares", "statement": "For a path of n moves that starts at a particle's cell and leaves no cell next to an edge, the random draws for which the particle follows this path during the next n iterations are those whose i-th direction number lies in an interval of length (weight of the i-th move) / (sum of the weights at its cell); the volume of the box of these intervals is the product of the shares. So the walk is the Markov chain with the documented transition probabilities.", "quantifier": "all routing set-ups with random walk, all reachable states, all paths of any length, all random streams", "why_tests_cant": "A statement about the probability of every path of every length; a test can only sample frequencies.", "anchors": ["dorado/lagrangian_walker.py: random_pick, particle_stepper, get_weight", "dorado/particle_track.py: Particles.run_iteration"]}
{"id": "C84", "title": "A run depends only on the flow field around its particles", "statement": "If two set-ups have the same parameters and the same array values (depth, stage, topography, discharges, velocities, cell types, region of interest) at every cell in which a particle is recorded at any time of a run and at the eight neighbours of these cells, then the same sequence of calls with the same random stream succeeds on both, returns the same walk data and leaves the generator in the same state: no distant cell influences a particle.", "quantifier": "all pairs of set-ups that agree around the recorded cells, all sequences of calls, all random streams", "why_tests_cant": "Says that changing any distant part of any flow field changes nothing; a test changes some cells of one field.", "anchors": ["dorado/lagrangian_walker.py: make_weight, get_weight, particle_stepper, calc_travel_times", "dorado/particle_track.py: Particles.generate_particles, Particles.run_iteration"]}
{"id": "C85", "title": "Only time differences matter", "statement": "Adding a constant to every time handed to a sequence of calls (start times, target times, the times in previous walk data) adds this constant to every time in the resulting walk data and changes nothing else: positions, tracked values, the number of particles, the consumed random numbers and a possible error are the same. Stated for exact arithmetic; in binary64 the sums are rounded.", "quantifier": "all routing set-ups, all sequences of calls, all random streams, all constants", "why_tests_cant": "A symmetry between two infinite families of runs; a test compares two runs.", "anchors": ["dorado/particle_track.py: Particles.generate_particles, Particles.run_iteration", "dorado/lagrangian_walker.py: particle_stepper"]}
{"id": "C86", "title": "Travel times are proportional to the cell size", "statement": "Multiplying dx by a number k > 0 multiplies every travel time by k and changes nothing else: the particles follow the same paths. Stated for exact arithmetic and for calls without a target time (the target-time loop uses a fixed first estimate of 0.1 s).", "quantifier": "all parameter sets, all k > 0, all sequences of calls without target time, all random streams", "why_tests_cant": "A relation between the runs of infinitely many set-ups.", "anchors": ["dorado/particle_track.py: Particles.__init__, Particles.run_iteration", "dorado/lagrangian_walker.py: step_update, calc_travel_times"]}
{"id": "C87", "title": "The vertical datum does not matter", "statement": "Adding a constant to all elevations (stage and topography; the depth is their difference) changes neither paths nor times nor random numbers; the tracked values of 'stage' are raised by the constant and all other tracked values are the same. Stated for exact arithmetic.", "quantifier": "all parameter sets, all constants, all sequences of calls, all random streams", "why_tests_cant": "A relation between the runs of infinitely many set-ups.", "anchors": ["dorado/particle_track.py: Particles.__init__, Particles.run_iteration", "dorado/lagrangian_walker.py: make_weight"]}
{"id": "C88", "title": "An interrupted run leaves usable walk data", "statement": "If run_iteration is stopped at any point (an exception inside it, or KeyboardInterrupt between any two of its changes to the walk data), the walk data kept by the object have lists of equal length for every particle, all earlier records are intact, and every record kept is a record the uninterrupted call would have made.", "quantifier": "all sessions, all calls of run_iteration with and without target time, all points at which the call can be stopped", "why_tests_cant": "The point of interruption and the history before it range over infinitely many cases; a test interrupts one run at one place, if at all.", "anchors": ["dorado/particle_track.py: Particles.run_iteration (all_xinds/all_yinds/all_times/optional_vars appends)"]}
{"id": "C89", "title": "Walk data returned by a call keep their contents", "statement": "The walk-data dictionary returned by run_iteration (or passed to generate_particles as previous_walk_data) keeps its contents when further calls are made, on this Particles object or on others: a result kept by the user is not changed by later calls.", "quantifier": "all programs of generate_particles, run_iteration and clear_walk_data calls on any number of Particles objects, with any dictionaries passed on, also when calls raise", "why_tests_cant": "The dictionaries share inner lists, so whether a kept result changes depends on every later call in the program; a test sees one sequence of calls.", "anchors": ["dorado/particle_track.py: Particles.run_iteration", "dorado/particle_track.py: Particles.generate_particles"]}
{"id": "C90", "title": "Particles objects do not influence each other", "statement": "The outcome of calls on one Particles object is the same whatever calls are made in between on other Particles objects (given the random numbers it draws), and calls on other objects do not change its walk data.", "quantifier": "all numbers of objects, all interleavings of calls on them, all dictionaries passed from one to another", "why_tests_cant": "Interleavings of calls and ways of handing walk data from one object to another are unbounded in number.", "anchors": ["dorado/particle_track.py: Particles.generate_particles", "dorado/particle_track.py: Particles.run_iteration", "dorado/routines.py: unsteady_plots"]}
{"id": "C91", "title": "Histories stay random walks whichever walk data are passed on", "statement": "Whichever walk data are given as previous_walk_data, including data that an object (the same or another one) is using, every recorded history remains a random walk: consecutive records are different neighbouring cells reached by one documented step.", "quantifier": "all numbers of objects, all programs of calls, all dictionaries passed on", "why_tests_cant": "The corruption appears only when a dictionary in use is passed on and a run follows; tests use fresh data.", "anchors": ["dorado/particle_track.py: Particles.generate_particles", "dorado/particle_track.py: Particles.run_iteration"]}
{"id": "C92", "title": "Exposure time grows with the region and with the run", "statement": "The exposure time of a particle in a region is never larger than in a region that contains it, and never decreases when the walk is continued: after any further runs of the same particles the exposure time of every particle in the same region is at least what it was.", "quantifier": "all region masks and histories with finite non-decreasing times (binary64); all sessions and all lists of further runs", "why_tests_cant": "Requires comparing every pair of nested masks and every continuation of every random walk, in rounded arithmetic.", "anchors": ["dorado/particle_track.py: exposure_time", "dorado/particle_track.py: Particles.run_iteration"]}
{"id": "C93", "title": "A step takes time exactly when it goes along the flow", "statement": "With a positive cell size, positive distances and a diffusion coefficient below 2, the recorded time grows over a step if and only if the direction taken has a positive component along the flow direction at the cell it leaves; otherwise the time is unchanged.", "quantifier": "all sessions, particles and steps (exact arithmetic, all libm functions)", "why_tests_cant": "The zero-time branch depends on the angle between a random direction and an arbitrary flow field.", "anchors": ["dorado/lagrangian_walker.py: calc_travel_times", "dorado/particle_track.py: Particles.run_iteration"]}
{"id": "C94", "title": "A better direction never gets less weight", "statement": "In an interior cell, if the neighbour in one direction is wet and not land and the water-surface slope, the discharge along the direction and the water depth are at least those of another direction, then its routing weight is at least as large as that of the other direction, dead ends included.", "quantifier": "all parameters, fields, interior cells and pairs of directions (binary64, finite sums)", "why_tests_cant": "Monotonicity over all fields in rounded arithmetic, through normalisation and the dead-end rule, is not a finite set of comparisons.", "anchors": ["dorado/lagrangian_walker.py: make_weight", "dorado/particle_track.py: Particles.__init__"]}
{"id": "C95", "title": "Routing has no preferred orientation", "statement": "Mirror all input arrays east-west or north-south, or exchange rows and columns, and turn the flow vectors accordingly: the constructor accepts the image too, every cell of the image has the routing weights of the original cell in the turned directions, and every path has the same probability as its image.", "quantifier": "all accepted parameter sets with default tables, all symmetries of the raster, all cells, directions and paths (exact arithmetic)", "why_tests_cant": "An orientation bias (a swapped sign or transposed table) shows only by comparing all cells and directions of arbitrary fields with their mirror images.", "anchors": ["dorado/lagrangian_walker.py: make_weight", "dorado/particle_track.py: Particles.__init__"]}
{"id": "C96", "title": "Steepest descent without diffusion does not depend on the random numbers", "statement": "If routing uses steepest descent (and therefore no diffusion, unless one is given) then, as long as every visited cell has one direction whose weight is larger than all others, the random numbers have no influence: two objects built from the same parameters, on which the same sequence of run_iteration calls is made (single steps and target times mixed) and whose particles started from equal histories, end with equal histories of that particle - the same cells, the same times, the same extra variables - whatever the seeds of their generators and whatever the other particles do.", "quantifier": "all standard parameter objects with steepest_descent on and a diffusion coefficient of zero, all pairs of random streams whose numbers are not scaled to zero, all pairs of states reachable through the API (with different numbers of particles), all particles with equal histories, all finite sequences of run_iteration calls, IEEE double arithmetic", "why_tests_cant": "A test compares two seeds on one field; this ranges over every field, every pair of streams and every sequence of calls, and over every interaction with other particles drawing from the same stream.", "anchors": ["dorado/lagrangian_walker.py: steep_descent, get_weight, calc_travel_times", "dorado/particle_track.py: Particles.run_iteration, modelParams.steepest_descent"]}
{"id": "C97", "title": "A faster flow gives the same paths in proportionally shorter times", "statement": "If every discharge and every velocity of a set-up is multiplied by the same positive factor k, then with the same seeds and the same random numbers the particles visit exactly the same cells in the same order, and every recorded travel time is divided by k. This holds as long as the particles only stand in cells where no velocity is so small that the code raises it to its floor of 1e-8 m/s.", "quantifier": "for every parameter set, every k > 0, every pair of sessions so related, every random stream, every number of single-step runs", "why_tests_cant": "Flow fields, factors, random streams and numbers of steps are unbounded, and the statement compares two complete simulations; a test compares a few.", "anchors": ["dorado/particle_track.py: Particles.__init__, run_iteration", "dorado/lagrangian_walker.py: make_weight, get_weight, calc_travel_times", "dorado/particle_track.py: modelParams"]}
{"id": "C98", "title": "An unsteady run uses the flow fields in the order of time", "statement": "unsteady_plots reads, in its i-th step, the depth, stage and discharge files of the i-th model timestep. This does not depend on the order in which the operating system lists the files.", "quantifier": "for every folder of model output (any number of timesteps, labels, contents, unrelated files), every listing order, every run", "why_tests_cant": "The listing order is chosen by the file system, and the number and names of the files are unbounded; a test fixes one folder on one machine.", "anchors": ["dorado/routines.py: unsteady_plots"]}
{"id": "C99", "title": "The results of an unsteady run may be saved in the folder of the flow fields", "statement": "unsteady_plots gives the same result whether its output folder is the folder that holds the flow fields or another one.", "quantifier": "for every folder of model output, every supported file type, every run", "why_tests_cant": "The claim compares two complete runs for every folder content; tests use a separate output folder.", "anchors": ["dorado/routines.py: unsteady_plots"]}
{"id": "C100", "title": "Exposure times and nourishment times agree", "statement": "If no particle starts or ends in a region, the exposure times of all particles in the region add up to the sum over its cells of the number of visits (as nourishment_area counts them) times the mean time per visit (as nourishment_time reports it, without smoothing and clipping).", "quantifier": "for every walk data with non-decreasing times, every 0/1 region, every raster size", "why_tests_cant": "Relates three routines for all histories and regions; a test can only compare a few numbers.", "anchors": ["dorado/particle_track.py: exposure_time, nourishment_time, nourishment_area"]}
{"id": "C101", "title": "Any two of depth, stage and topography describe the same set-up", "statement": "Constructing Particles from depth and topography, from depth and stage = topography + depth, or from that stage and topography gives the same object, hence the same simulation.", "quantifier": "all parameter sets, all depth and topography arrays (depths not negative), both number semantics", "why_tests_cant": "There are infinitely many arrays; whether rounding turns a shallow cell into land depends on the exact digits of two inputs.", "anchors": ["dorado/particle_track.py: Particles.__init__ (159-197), modelParams"]}
{"id": "C102", "title": "Routes depend only on depth, stage, discharge and cell types", "statement": "Two set-ups with the same depth, stage, discharge and cell types and the same routing parameters record the same cells for every particle for the same random numbers, whatever dx, the velocities, the positive diffusion coefficient, the region of interest and the tracked variables are: calibrating the times never changes the paths.", "quantifier": "all pairs of set-ups that agree in the named inputs, all random streams, all programs of seeding, single steps and clearing", "why_tests_cant": "A test compares one pair of runs; a hidden dependence (a shared random number, a velocity used in the weights) may show only for some fields and draws.", "anchors": ["dorado/particle_track.py: Particles.__init__, Particles.run_iteration", "dorado/lagrangian_walker.py: make_weight, get_weight, calc_travel_times, particle_stepper"]}
{"id": "C103", "title": "Velocities and discharges are interchangeable", "statement": "Giving velocities (u,v), or giving the discharges (u*depth, v*depth), leads every particle through the same cells; speeds and hence travel times agree up to one part in a million in all wet cells.", "quantifier": "all velocity fields, depths, random streams and programs without target time", "why_tests_cant": "The code regularises the division by depth; the size of the effect depends on the depth of every cell a particle visits.", "anchors": ["dorado/particle_track.py: Particles.__init__ (199-262)"]}
{"id": "C104", "title": "Particles do not outrun the flow", "statement": "In a field that flows in one direction with speeds between lo and hi, a particle gets no further along the flow, between any two of its records, than water at speed hi gets in the recorded time (lengthened or shortened by the dispersion factor), and if it only moves with the flow it gets at least as far as water at speed lo.", "quantifier": "all fields with one flow direction, all random streams, all programs, all particles and all pairs of records", "why_tests_cant": "Travel times accumulate over the whole history; a bound on the average speed of every particle after any number of steps is not visible in any finite set of runs.", "anchors": ["dorado/lagrangian_walker.py: calc_travel_times (314-372), run_iteration", "dorado/particle_track.py: Particles.run_iteration"]}
{"id": "C105", "title": "Running to a time that has been reached moves nothing", "statement": "Once all particles have been run to a target time, running to the same (or an earlier) target time again leaves every history as it is, whatever random numbers come next.", "quantifier": "all sessions, target times, particles and random streams", "why_tests_cant": "Whether a further step is taken depends on the length of the last step, the distance to the target and the next random number, for every state a session can reach.", "anchors": ["dorado/particle_track.py: Particles.run_iteration (628-790)"]}
{"id": "C106", "title": "Stopping on the way does not change a particle's path", "statement": "Running a particle to a time t1 and then to a later time t2 records the same cells and times as running it to t2 directly with the same random numbers.", "quantifier": "all sessions of one particle, all pairs of target times t1 <= t2, all random streams", "why_tests_cant": "Two runs have to be compared record by record for every pair of target times; the decision to stop is taken anew at each call, from the last step only.", "anchors": ["dorado/particle_track.py: Particles.run_iteration (628-790)", "dorado/routines.py: unsteady_plots (target times in a loop)"]}
{"id": "C107", "title": "Later target times show later records", "statement": "For two target times t1 <= t2, get_time_state at t2 returns for every particle the same or a later record than at t1, and every particle reported as late for t1 is reported for t2.", "quantifier": "all walk data with finite, non-decreasing times, all pairs of target times", "why_tests_cant": "The claim relates two calls for every pair of targets and all possible spacings of recorded times.", "anchors": ["dorado/routines.py: get_time_state (476-549), plot_state"]}
{"id": "C108", "title": "The state at a recorded time is the recorded one", "statement": "get_time_state at the time of a recorded position of a particle returns that position for that particle; in particular the state at its final time is its final position.", "quantifier": "all walk data with finite times, all particles and records", "why_tests_cant": "It must hold for all spacings of the times, including times that differ in the last bit only and steps that take no time.", "anchors": ["dorado/routines.py: get_time_state (476-549), plot_state"]}
{"id": "C109", "title": "The nourishment area map depends only on how often each cell was recorded", "statement": "For walk data on the raster, nourishment_area returns a map that depends only on the number of recorded positions in each cell, for every smoothing width and clip percentile: neither the order of the particles nor the order of batches of particles put together changes a single value of it (or the exception raised).", "quantifier": "all walk data on a raster with at most 2^53 records, all permutations of the particles, all values of sigma and clip, all smoothing filters that look only at the values of the raster", "why_tests_cant": "Comparing permuted inputs in a test covers a few permutations of a few walks; the claim is about every permutation and every pair of walks with the same counts, including ties in the percentile.", "anchors": ["dorado/particle_track.py: nourishment_area", "dorado/parallel_routing.py: parallel_routing, combine_result"]}
{"id": "C110", "title": "The map of mean residence times does not depend on the order of the particles", "statement": "In exact arithmetic nourishment_time returns the same map whatever order the particles of the walk data are in. With floating-point numbers the last digits may differ, because the residence times of a cell are added one after the other.", "quantifier": "all walk data on a raster with at most 2^53 records, all permutations of the particles, all values of sigma and clip, all smoothing filters that look only at the values of the raster", "why_tests_cant": "Tests compare with a tolerance and a fixed order; they cannot tell rounding from a dependence on the order.", "anchors": ["dorado/particle_track.py: nourishment_time"]}
{"id": "C111", "title": "The vertical unit does not matter", "statement": "Expressing all vertical quantities in another unit (depth, stage, topography, dry depth and discharge per unit width multiplied by the same positive factor; velocities and cell size unchanged) changes neither the paths nor the travel times; tracked depths, stages and discharges come out in the new unit. True when velocities are given. When discharges are given the paths are the same, but the travel times are not, because the velocity is computed as q*depth/(depth^2 + 1e-8).", "quantifier": "every parameter set, factor, math library with (k d)^theta = c d^theta, stream of random numbers and program of calls", "why_tests_cant": "the factor, the grids and the whole run are arbitrary; a test compares two runs at most", "anchors": ["dorado/particle_track.py: modelParams, Particles.__init__, generate_particles, run_iteration", "dorado/lagrangian_walker.py: make_weight, random_pick, steep_descent"]}
{"id": "C112", "title": "Saved results can be read back", "statement": "The file data.txt that steady_plots, unsteady_plots and time_plots write, read as the example code in the source shows (json.load), gives exactly the walk data: the same particles, positions, times and tracked values, down to the last bit, including NaN and infinite values. True if every tracked grid is of type float64; if a tracked grid has another type (float32, integers), saving fails with a TypeError after the whole run.", "quantifier": "walk data of every session, every number format in which a float is read back exactly", "why_tests_cant": "a test writes a few literal dictionaries; the claim is about every number and every shape of the lists", "anchors": ["dorado/routines.py: steady_plots (110-116), unsteady_plots (287-292), time_plots (380-385)"]}
{"id": "C113", "title": "A simulation can be continued from a saved file", "statement": "If the walk data are saved, read back and given as previous_walk_data (with no new particles) to a new object with the same parameters, every later program of calls gives the same results as continuing with the old object, if the generator delivers the same numbers.", "quantifier": "every session, file, later program of calls and later stream of random numbers", "why_tests_cant": "the interruption can happen after any history and any calls may follow", "anchors": ["dorado/routines.py: steady_plots (110-116)", "dorado/particle_track.py: Particles.generate_particles, run_iteration"]}
{"id": "C114", "title": "Levees hold", "statement": "A particle seeded on a wet cell of a region that is enclosed by land or dry cells never leaves the region and never stands on a dry or land cell. True if no wet cell outside touches a wet cell of the region even with a corner, and land cells are not deeper than dry_depth (always so with the default cell types). A line of land cells that touch only at their corners does not hold: steps to diagonal neighbours cross it.", "quantifier": "every session, region, particle and time; draws that map to exactly zero excluded", "why_tests_cant": "the region, the flow field and the history are arbitrary; a leak may need a rare draw", "anchors": ["dorado/particle_track.py: Particles.__init__ (cell types), run_iteration", "dorado/lagrangian_walker.py: make_weight, get_weight, particle_stepper"]}
{"id": "C115", "title": "An unsteady run in a steady flow is an ordinary run", "statement": "If all flow fields given to unsteady_plots are the same, it returns exactly what one Particles object returns that is built from that field, seeded once and run to the target times one after the other (same positions, times and use of random numbers): handing the walk data from object to object leaves no trace.", "quantifier": "every flow field, number of steps, timestep, seeding and stream of random numbers", "why_tests_cant": "the run may take any number of steps in any field; a test compares two runs for a few seeds", "anchors": ["dorado/routines.py: unsteady_plots (121-294)", "dorado/particle_track.py: Particles.generate_particles, run_iteration"]}
{"id": "C116", "title": "A larger theta makes deeper cells more likely", "statement": "Take two set-ups that differ only in theta. At any cell off the outer ring the particle may move to the same neighbours in both. With the larger theta the odds of a deeper neighbour against a shallower one never fall. So the probability of moving to the deepest open neighbour never falls, and the probability of moving to the shallowest one never rises. This holds in exact arithmetic, for finite depths and a non-negative dry_depth.", "quantifier": "all grids, flow fields and parameters accepted by the constructor, all cells off the outer ring, all pairs of exponents and every power function for which the larger exponent widens the ratio of two depths", "why_tests_cant": "theta is a free real number and the probabilities depend on all nine neighbours; a test compares two values of theta on one field.", "anchors": ["dorado/lagrangian_walker.py: make_weight, get_weight", "dorado/particle_track.py: modelParams, Particles.__init__"]}
{"id": "C117", "title": "A larger gamma shifts the choice from the flow to the water surface slope", "statement": "Take two set-ups that differ only in gamma, and a cell off the outer ring that is a dead end in neither. The slope shares and the flow shares of the nine directions are the same in both. With the larger gamma the odds of a direction that owes more to the slope (slope share : flow share at least as large) against one that owes less never fall. So the probability of the direction that owes most to the slope never falls, and that of the direction that owes least never rises. This holds in exact arithmetic, for finite slopes, flows and depth powers.", "quantifier": "all grids, flow fields and parameters accepted by the constructor, all cells off the outer ring, all gamma1 <= gamma2 in [0,1]", "why_tests_cant": "gamma is a free real number and the probabilities depend on all nine neighbours; a test compares two values of gamma on one field.", "anchors": ["dorado/lagrangian_walker.py: make_weight, get_weight", "dorado/particle_track.py: modelParams, Particles.__init__"]}
{"id": "C118", "title": "With gamma = 1 particles run down the water surface and come to rest", "statement": "If gamma is 1, every recorded step of every particle leads to a cell with a strictly lower water level (stage), unless it starts at a dead end (a cell from which no direction has a positive weight). If a particle meets no dead end, the water levels along its path fall strictly, it never visits a cell twice, and its path never has more records than the grid has cells, however many iterations are run. Draws that map to cumulative weight exactly 0 are excluded (see C07), and levels, slopes and discharges must not overflow.", "quantifier": "all grids, stage fields and discharges with finite slopes, all seeds, schedules of calls and random streams, all particles and steps, in binary64", "why_tests_cant": "the statement is about every path of unbounded length on every field; a test follows a few particles.", "anchors": ["dorado/lagrangian_walker.py: make_weight, random_pick, get_weight", "dorado/particle_track.py: Particles.run_iteration"]}
{"id": "C119", "title": "No step goes up the water surface and against the flow at once", "statement": "For every gamma in [0,1]: every recorded step starts at a dead end, or leads to a strictly lower water level, or goes in a direction in which the discharge at the start has a strictly positive component. Draws that map to cumulative weight exactly 0 are excluded (see C07), and levels, slopes and discharges must not overflow.", "quantifier": "all grids, fields, gamma and theta accepted by the constructor, all seeds, schedules of calls and random streams, all particles and steps, in binary64", "why_tests_cant": "the statement is about every step of every path on every field; a test follows a few particles.", "anchors": ["dorado/lagrangian_walker.py: make_weight, random_pick, get_weight", "dorado/particle_track.py: Particles.run_iteration"]}
{"id": "C120", "title": "Continuing from walk data that lack a tracked variable", "statement": "If a Particles object tracks a variable that its walk_data do not contain (they were recorded with fewer tracked variables and assigned to walk_data), run_iteration() moves the particles and records cells, times and the other variables exactly as if the variable were there. The returned data contain the variable for every particle: None, followed by the value at the new cell if the particle moved in this call. The walk data of the object stay without the variable, so after any number of calls the next one again returns at most two entries, and the values recorded in earlier calls are lost.", "quantifier": "all flow fields, random numbers, histories of any length, subsets of missing variables, numbers of calls before", "why_tests_cant": "Tests continue from data that the same object has made; which list ends up in which dictionary depends on the variables that are missing and on all earlier calls.", "anchors": ["dorado/particle_track.py: Particles.run_iteration", "dorado/lagrangian_walker.py: particle_stepper"]}
{"id": "C121", "title": "What get_state shows of an iteration stays", "statement": "After any further calls of run_iteration and generate_particles (without earlier walk data), get_state for an iteration that a particle had already made returns for this particle the same position, time and tracked values as before, under the same particle number.", "quantifier": "all sessions, all continuations of a session, all iteration numbers, particles and tracked variables", "why_tests_cant": "It must hold for every history and every continuation of it; tests compare one slice of one run.", "anchors": ["dorado/routines.py: get_state", "dorado/particle_track.py: Particles.run_iteration, Particles.generate_particles"]}
{"id": "C122", "title": "What get_time_state shows of a time that was reached stays", "statement": "After any further calls of run_iteration and generate_particles (without earlier walk data), get_time_state for a target time that is not after a particle's last recorded time returns for this particle the same position, time and tracked values as before.", "quantifier": "all sessions in which times do not decrease, all continuations, target times, particles and tracked variables", "why_tests_cant": "It must hold for every history, every continuation and every target time, with rounding; tests compare one slice of one run.", "anchors": ["dorado/routines.py: get_time_state", "dorado/particle_track.py: Particles.run_iteration, Particles.generate_particles"]}
{"id": "C123", "title": "clear_walk_data gives a new start", "statement": "After clear_walk_data, an object that has been used for any simulation behaves like one just constructed from the same parameters: any further calls return or raise in the same way and, with the random generator in the same state, give the same walk data. Nothing of the earlier simulation influences later particles.", "quantifier": "every set-up, every earlier sequence of calls, every later sequence of calls, every stream of random numbers", "why_tests_cant": "The weights stored in the object are changed by every step, so a new start depends on the whole earlier history; a test clears after one history only.", "anchors": ["dorado/particle_track.py: Particles.clear_walk_data, Particles.generate_particles, Particles.run_iteration", "dorado/lagrangian_walker.py: get_weight"]}
{"id": "C124", "title": "Going on from walk data assigned to an object", "statement": "If walk data of an earlier simulation are assigned to the attribute walk_data of an object made from the same parameters, run_iteration (and any further calls) go on with all particles of the data, as the object that produced them would have done with the same random numbers.", "quantifier": "every set-up, every earlier simulation, every state of the receiving object, every later sequence of calls, every stream of random numbers", "why_tests_cant": "It depends on the history of both objects: the number of particles is remembered separately from the data and survives clear_walk_data.", "anchors": ["dorado/particle_track.py: Particles.run_iteration, Particles.clear_walk_data, Particles.walk_data"]}
