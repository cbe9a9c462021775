import json
P=[]
def p(title,statement,quantifier,why,anchors):
    P.append(dict(id="C%02d"%(len(P)+1),title=title,statement=statement,quantifier=quantifier,why_tests_cant=why,anchors=anchors))

p("Chunks partition the states and the targets",
  "For every problem size and every chunk/process setting the engine accepts, the chunk sizes an engine computes are all at least 1 and sum to exactly the number of states (resp. targets); the size search always terminates and the internal consistency assertion never fires.",
  "all n_states >= 1, n_targets >= 0, n_procs >= 1, chunk_size_states and chunk_size_points each absent or >= 1",
  "there are infinitely many size/process/chunk combinations and the rounding cases (remainders, the shrinking while loop) are sparse among them",
  ["foxes/core/engine.py: Engine.calc_chunk_sizes"])
p("Chunk sizes are balanced and bounded",
  "Any two chunk sizes along the same dimension differ by at most one, and a chunk never holds more than the user's requested chunk size plus one. (The stronger reading that a chunk never exceeds the requested size is false of the code.)",
  "all n_states >= 1, all n_targets, n_procs and chunk size settings",
  "an off-by-one only shows for particular remainders; a test fixes a handful of sizes",
  ["foxes/core/engine.py: Engine.calc_chunk_sizes"])
p("Chunked evaluation equals unchunked evaluation",
  "For models that treat (state, target) pairs independently, the assembled result of a chunked run equals the result of a single-chunk run, for every partition of states and targets into chunks and for every order in which the parallel chunk jobs complete.",
  "all state counts, target counts, chunk lists summing to them, per-pair models, and all completion schedules",
  "the number of partitions times completion orders is unbounded; concurrency schedules cannot be enumerated by tests",
  ["foxes/engines/pool.py: PoolEngine.run_calculation","foxes/engines/numpy.py: NumpyEngine.run_calculation","foxes/core/engine.py: Engine.combine_results, get_chunk_input_data"])
p("Parallel map equals sequential map",
  "Engine.map over a worker pool returns, in the original order, exactly what the sequential map would return, for every number of processes and inputs and every order of job completion.",
  "all input lists, all n_procs >= 1, all functions, all completion schedules",
  "order bugs depend on the schedule and on length/process remainders",
  ["foxes/engines/pool.py: PoolEngine.map, _run_map","foxes/core/engine.py: Engine.map"])
p("At most one engine is active",
  "In every sequence of engine construction, with-block entry/exit, initialize, finalize and reset_engine calls, at most one engine object is the global engine, get_engine returns it, and an engine reports initialized exactly when it is the global engine; entering a second engine while one is active is rejected without disturbing the active one.",
  "all finite histories of lifecycle operations over any number of engines, including failing operations",
  "a history property over unboundedly many operation interleavings",
  ["foxes/core/engine.py: Engine.__enter__, __exit__, initialize, finalize, get_engine, reset_engine"])
p("Every chunked dimension is reported as a loop dimension",
  "Engine.loop_dims lists the point dimension whenever a point chunk size is set, and the state dimension whenever a state chunk size is set.",
  "all combinations of chunk size settings",
  "requires reading all settings combinations, including the one where only one of both is set",
  ["foxes/core/engine.py: Engine.loop_dims"])
p("Model lifecycle discipline",
  "For every acyclic graph of models and every call, including calls interrupted by a failing data load: an initialised model has all its direct and indirect sub-models initialised; initialize never un-initialises a model and touches only models below the called one; finalize clears exactly the called model and everything below it; initialize and finalize are rejected while the model runs, changing nothing.",
  "all finite model trees and all finite histories of lifecycle calls",
  "histories and tree shapes are unbounded",
  ["foxes/core/model.py: Model.initialize, finalize, set_running, unset_running"])
p("Running stash round trip",
  "Switching an algorithm to running mode and back restores the model book, data book and stored model data that were present before, for every content and every tree of sub-models, in every history of runs.",
  "all store contents, all model trees, all numbers of successive runs",
  "holds over all states; a test checks one model set",
  ["foxes/core/algorithm.py: Algorithm.set_running, unset_running","foxes/input/states/states_table.py: StatesTable.set_running"])
p("A failed calculation leaves the algorithm usable",
  "If a calculation raises at any point, the algorithm can afterwards be used for another calculation (the running flag is not left set).",
  "all points at which the chunk calculation can raise",
  "crash-point property: every interruption point must be considered",
  ["foxes/algorithms/downwind/downwind.py: Downwind.calc_farm, calc_points","foxes/core/algorithm.py: Algorithm.set_running, unset_running"])
p("Chunk store returns what was stored",
  "After any sequence of per-chunk stores, retrieving the data of the current or an earlier chunk returns exactly the value last stored for that chunk's state and target offset, walking back over chunks yields the immediately preceding chunk, and resetting the store hands back the old content once.",
  "all sequences of chunk store operations and all chunk geometries",
  "unbounded histories and offsets",
  ["foxes/core/algorithm.py: Algorithm.find_chunk_in_store, add_to_chunk_store, get_from_chunk_store, reset_chunk_store"])
p("Farm results come back in farm order",
  "Whatever the per-state turbine processing order, each reported per-turbine value belongs to the turbine at that index of the wind farm: sorting into processing order and the final re-ordering cancel exactly, for any states and any order, and skipping the re-ordering for state-independent arrays of equal rows changes nothing.",
  "all farm sizes, numbers of states, values, and all per-state permutations",
  "n! orders per state; a symmetric test layout hides index mix-ups",
  ["foxes/algorithms/downwind/models/init_farm_data.py: InitFarmData.calculate","foxes/algorithms/downwind/models/reorder_farm_output.py: ReorderFarmOutput.calculate"])
p("The order computation is a downwind-sorted permutation",
  "For every farm and state, the turbine order used by the default wake frame is a permutation of all turbines that is non-decreasing in the along-wind coordinate.",
  "all farm sizes, positions and wind directions",
  "all layouts and directions including ties",
  ["foxes/models/wake_frames/rotor_wd.py: RotorWD.calc_order"])
p("Turbine results do not depend on downstream turbines",
  "In a downwind run the result of a turbine depends only on turbines preceding it in the processing order: changing, adding or removing later turbines leaves it unchanged, and the first turbine sees ambient conditions exactly.",
  "all farms, states, wake models and superpositions (as arbitrary functions) and turbine model chains",
  "universally quantified non-interference over arbitrary models",
  ["foxes/algorithms/downwind/models/farm_wakes_calc.py: FarmWakesCalculation.calculate"])
p("Results do not depend on the numbering of turbines",
  "Re-numbering the turbines of a farm permutes the farm results accordingly and changes nothing else, provided no two turbines are at equal along-wind position.",
  "all farms, all permutations of turbines, all pairwise wake models with any superposition",
  "n! renumberings of unbounded farms",
  ["foxes/algorithms/downwind/models/init_farm_data.py: InitFarmData.calculate","foxes/algorithms/downwind/models/farm_wakes_calc.py: FarmWakesCalculation.calculate","foxes/algorithms/downwind/models/reorder_farm_output.py"])
p("Reported order arrays are mutually inverse",
  "In the farm results, the reported inverse order is the inverse permutation of the reported order, in every state.",
  "all farm sizes and processing orders",
  "small farms or 2-cycles hide the error; only permutations containing longer cycles show it",
  ["foxes/algorithms/downwind/models/reorder_farm_output.py: ReorderFarmOutput.calculate","foxes/algorithms/downwind/models/init_farm_data.py: InitFarmData.calculate"])
p("User-set farm variables reach the right turbine",
  "A variable value set by the user for turbine i (via the set-farm-variables turbine model) is the value used for, and reported at, turbine i, in every state and for every processing order.",
  "all farm sizes, processing orders and values, pre- and post-rotor placement",
  "needs all permutations; symmetric data hides it",
  ["foxes/models/turbine_models/set_farm_vars.py: SetFarmVars.calculate","foxes/algorithms/downwind/models/init_farm_data.py"])
p("Per-turbine rules are applied to the turbine they name",
  "Turbine models that carry per-turbine settings by turbine index or name (sector management rules, power masks) act on the named turbines and no others, for every processing order.",
  "all farms, rules, and processing orders",
  "the wrong turbine is hit only for particular wind directions",
  ["foxes/models/turbine_models/sector_management.py: SectorManagement.calculate","foxes/models/turbine_models/power_mask.py: PowerMask.calculate"])
p("Model merge respects every turbine's model order",
  "Whenever the farm controller succeeds, the single global model sequence it builds applies to each turbine exactly the models of that turbine's list, in exactly that turbine's order, and no other; the procedure always terminates.",
  "all numbers of turbines and all model lists without repetition within a turbine",
  "unbounded numbers and lengths of lists",
  ["foxes/core/farm_controller.py: FarmController._analyze_models, collect_models"])
p("Model merge is complete",
  "The farm controller only rejects a set of turbine model lists when no global order compatible with all the lists exists.",
  "all finite sets of repetition-free model lists",
  "completeness of a greedy search over unbounded inputs",
  ["foxes/core/farm_controller.py: FarmController._analyze_models"])
p("State selections stay attached to their model",
  "A turbine model added with a state selection is applied in exactly the selected states, irrespective of which other models the turbine has and whether they are evaluated before or after the rotor.",
  "all model lists mixing pre- and post-rotor models and all selections",
  "needs all mixes of pre/post rotor models and selections",
  ["foxes/core/farm_controller.py: FarmController.collect_models, _analyze_models, __get_pars","foxes/core/turbine.py: Turbine.add_model"])
p("The iterative algorithm reproduces the downwind algorithm",
  "For downwind-only wake effects the iterative algorithm, started from ambient conditions, has after k sweeps the exact downwind result at the first k+1 turbines of the order, hence after at most n sweeps it equals the downwind result at all n turbines and stays there; the default iteration limit is never the reason for stopping before that.",
  "all farm sizes, wake models that act only downstream, commutative superpositions",
  "convergence for all farms and models cannot be sampled",
  ["foxes/algorithms/iterative/iterative.py: Iterative.calc_farm","foxes/algorithms/iterative/models/farm_wakes_calc.py: FarmWakesCalculation.calculate"])
p("Iterative loop bound",
  "The iterative calculation always terminates, performs at most max_it + 1 iterations, stops at the first iteration whose convergence check passes with no blocking, and blocked convergence never stops it early.",
  "all convergence behaviours (arbitrary sequences of verdicts and blocks) and all max_it",
  "all infinite verdict sequences",
  ["foxes/algorithms/iterative/iterative.py: Iterative.calc_farm","foxes/core/algorithm.py: Algorithm.block_convergence, eval_conv_block"])
p("Convergence verdict means small change",
  "With at least one monitored variable, the default convergence criterion accepts exactly when every monitored variable changed by at most its limit at every state and turbine (wind directions compared modulo 360 degrees), never accepts the first iteration, and its verdict does not depend on the verbosity.",
  "all result arrays and limits",
  "verdict over all array contents",
  ["foxes/algorithms/iterative/models/convergence.py: ConvVarDelta.check_converged, ConvCritList.check_converged"])
p("Wake superposition is order independent",
  "For linear, quadratic, maximum, power and local wind speed or turbulence superpositions, and for any permutation of the wake-causing turbines, the resulting wake delta is the same.",
  "all finite lists of wake contributions and all permutations",
  "n! orders",
  ["foxes/models/wake_superpositions/*.py: add_wake, calc_final_wake_delta"])
p("Superposition limits are honoured",
  "When lower/upper limits are configured with low <= high, ambient value plus final wake delta lies within the limits for every input; without wakes and with ambient inside the limits the delta is zero.",
  "all contributions and ambient values, all limits low <= high",
  "real-valued universally quantified bound",
  ["foxes/models/wake_superpositions/ws_linear.py","foxes/models/wake_superpositions/ws_quadratic.py","foxes/models/wake_superpositions/ws_max.py","foxes/models/wake_superpositions/ws_pow.py"])
p("More wakes never increase the wind speed",
  "For deficit contributions, each additional wake lowers (or leaves) the final wind speed under linear, quadratic and max superposition, and an added turbulence never lowers the final turbulence intensity.",
  "all lists of deficits and any extra deficit",
  "monotonicity over all inputs",
  ["foxes/models/wake_superpositions/ws_linear.py","foxes/models/wake_superpositions/ws_quadratic.py","foxes/models/wake_superpositions/ti_quadratic.py"])
p("Product superposition leaves unwaked turbines at ambient",
  "With the product superposition a turbine that receives no wake keeps exactly its ambient wind speed, in all farms and whatever other turbines receive.",
  "all sequences of contributions to a group of targets, including empty ones",
  "depends on which targets are hit by which wakes and in which order",
  ["foxes/models/wake_superpositions/ws_product.py: WSProduct.add_wake, calc_final_wake_delta","foxes/models/wake_models/top_hat.py: TopHatWakeModel.calc_wakes_x_r"])
p("Wind direction differences are shortest signed angles",
  "For wind directions in [0,360] (more generally differences within +-540 degrees) the wind direction difference is in [-180,180] and congruent to the plain difference modulo 360 degrees; outside that range the code's single wrap step is not enough.",
  "all real pairs of directions",
  "all reals, boundary values +-180",
  ["foxes/utils/wind_dir.py: delta_wd"])
p("Wind vector and wind direction round trip",
  "Converting a wind direction and positive speed to a wind vector and back returns the direction modulo 360 degrees (in [0,360)), and the vector's length is the speed.",
  "all directions and all positive speeds",
  "continuous domain with quadrant cases",
  ["foxes/utils/wind_dir.py: wd2uv, uv2wd, wd2wdvec, wdvec2wd"])
p("Yaw conversions are mutually inverse",
  "Converting relative yaw misalignment to absolute yaw and back returns the misalignment for every misalignment strictly within +-180 degrees; and absolute to relative to absolute returns the yaw modulo 360.",
  "all wind directions in [0,360) and all yaws",
  "continuous domain with wrap boundaries",
  ["foxes/models/turbine_models/yaw2yawm.py","foxes/models/turbine_models/yawm2yaw.py","foxes/utils/wind_dir.py: delta_wd"])
p("Wake coordinates are an isometry",
  "The default wake frame's coordinates preserve all distances to the wake-causing rotor, put a point straight downstream at distance s at (s,0,0), and the frame's centreline points have exactly those coordinates.",
  "all turbine positions, points and wind directions",
  "continuous domain",
  ["foxes/models/wake_frames/rotor_wd.py: RotorWD.get_wake_coos, get_centreline_points"])
p("Circle overlap area is correct at its bounds",
  "The two-circle intersection area is symmetric in the radii, zero for disjoint circles, the smaller disc's area under containment, and always within [0, pi*min(r1,r2)^2].",
  "all radii >= 0 and all distances >= 0",
  "continuous domain; branch boundaries",
  ["foxes/utils/two_circles.py: calc_area"])
p("Top-hat partial wake weights are fractions",
  "The top-hat partial wake weight is in [0,1], 1 when the rotor lies inside the wake and 0 when outside.",
  "all rotor diameters, wake radii and centre distances",
  "continuous domain",
  ["foxes/models/partial_wakes/top_hat.py: PartialTopHat.contribute","foxes/utils/two_circles.py: calc_area"])
p("Cubic solver returns roots",
  "Every finite value returned by the cubic root solver is a root of the given cubic.",
  "all real coefficients with non-zero leading coefficient",
  "continuous four-parameter domain with degenerate branches",
  ["foxes/utils/cubic_roots.py: cubic_roots"])
p("Betz axial induction is physical",
  "For every thrust coefficient the Betz axial induction factor is below 1/2, non-negative for non-negative ct, monotone in ct, and inverts ct = 4a(1-a) up to the cap.",
  "all real ct and all caps <= 1",
  "continuous domain",
  ["foxes/models/axial_induction/betz.py: BetzAxialInduction.ct2a"])
p("Jensen wake deficit is bounded and recovers",
  "The Jensen wake deficit amplitude is in [-1,0], zero outside the wake radius and for non-positive distance or thrust, and its magnitude is non-increasing with downstream distance for fixed growth.",
  "all distances, diameters, growth constants and thrust coefficients",
  "continuous domain",
  ["foxes/models/wake_models/wind/jensen.py: JensenWake","foxes/models/wake_models/top_hat.py"])
p("Gaussian wake deficit is bounded and decays radially",
  "The Bastankhah 2014 wake deficit factor is in [-1,0], largest in magnitude on the axis, and non-increasing in magnitude with radial distance.",
  "all distances, radii, diameters, growth and thrust values",
  "continuous domain",
  ["foxes/models/wake_models/wind/bastankhah14.py","foxes/models/wake_models/gaussian.py"])
p("Rotor models average a uniform wind exactly",
  "For every rotor discretisation the rotor point weights are non-negative and sum to one, so uniform inflow aligned with the rotor gives the free-stream value as rotor effective wind speed (first, second and third moment alike).",
  "all grid/level resolutions n >= 1 and all wind speeds >= 0",
  "all n and all speeds",
  ["foxes/models/rotor_models/grid.py: GridRotor.initialize","foxes/models/rotor_models/levels.py: LevelRotor.initialize","foxes/core/rotor_model.py: RotorModel.eval_rpoint_results"])
p("Vertical wind profiles pass through their reference",
  "Power-law, neutral, stable and unstable logarithmic profiles return the reference wind speed at the reference height, and the power-law and neutral/stable profiles are monotone in height and non-negative.",
  "all reference heights above roughness, wind speeds, stability lengths and exponents",
  "continuous domain",
  ["foxes/utils/abl/neutral.py","foxes/utils/abl/stable.py","foxes/utils/abl/unstable.py","foxes/utils/abl/sheared.py","foxes/models/vertical_profiles/*.py"])
p("Area expressions obey set algebra",
  "Membership in unions, intersections, differences and inverses of boundary geometries is the corresponding set operation on memberships, for every nested expression over shapes whose own inverse is exact; double inversion restores the original; a half plane's inverse shares its boundary line.",
  "all finite expression trees and all points",
  "unbounded expression nesting",
  ["foxes/utils/geom2d/area_geometry.py: AreaGeometry.__add__, __sub__, __invert__, AreaUnion, AreaIntersection, InvertedAreaGeometry","foxes/utils/geom2d/half_plane.py"])
p("Bounding boxes contain their area",
  "Every point inside a bounded geometry lies within its reported bounding box.",
  "all shapes, nested expressions and points",
  "unbounded nesting, continuous points",
  ["foxes/utils/geom2d/*.py: p_min, p_max"])
p("Distance to a boundary is the true distance",
  "The distance reported from a point to a polygon boundary (circle, half plane) equals the minimum distance to any point of that boundary, and the reported nearest point lies on the boundary and attains it.",
  "all polygons, circles, half planes and points",
  "minimum over a continuum",
  ["foxes/utils/geom2d/polygon.py: ClosedPolygon.points_distance","foxes/utils/geom2d/circle.py: Circle.points_distance","foxes/utils/geom2d/half_plane.py"])
p("State and turbine reductions are weighted means and sums",
  "The state mean lies between the smallest and largest state value and reproduces constants when weights sum to one; the farm sum of turbine means equals the mean of farm sums; the unweighted mean lies between the extremes.",
  "all result arrays and weights",
  "all arrays",
  ["foxes/output/farm_results_eval.py: weinsum, reduce_states, reduce_turbines, reduce_all, calc_farm_mean"])
p("Yield does not depend on the time resolution",
  "Annual yield equals mean power times the hours of a year in GWh, for every power array, and is independent of the covered duration; ambient yields are available the same way.",
  "all power arrays, weights, and state durations",
  "all arrays and durations",
  ["foxes/output/farm_results_eval.py: calc_turbine_yield, calc_farm_yield"])
p("Farm efficiency is a fraction",
  "When waked power never exceeds ambient power and powers are non-negative, turbine and farm efficiency and capacity lie in [0,1] wherever they are defined.",
  "all power arrays and weights",
  "all arrays",
  ["foxes/output/farm_results_eval.py: add_efficiency, add_capacity, calc_farm_efficiency"])
p("Turbine curves stay within the table",
  "Power and thrust obtained from a turbine's curve file are within [0, maximum of the table], equal the table at its nodes, and are zero outside the tabulated range.",
  "all strictly increasing non-negative curve tables and all wind speeds",
  "interpolation over a continuum and all tables",
  ["foxes/models/turbine_types/PCt_file.py: PCtFile.calculate"])
p("A turbine's power does not depend on other turbines' model lists",
  "The density-corrected power of a turbine is the same whether or not all turbines of the farm share its turbine type.",
  "all curves, densities and selections",
  "aliasing effect depending on array view/copy semantics",
  ["foxes/models/turbine_types/PCt_file.py: PCtFile.calculate","foxes/core/farm_controller.py: __get_pars"])
p("Cut-in modification is applied once",
  "The iterative algorithm's cut-in smoothing of a turbine type's thrust curve does not depend on how many turbines of that type the farm has.",
  "all farms and curves",
  "depends on multiplicities",
  ["foxes/algorithms/iterative/iterative.py: Iterative.initialize","foxes/models/turbine_types/PCt_file.py: PCtFile.modify_cutin"])
p("Model name templates round trip",
  "A model name rendered from a factory template with option values is recognised by that factory and yields exactly those values, provided the separator following a value does not start earlier in the value followed by the separator (for separators like '_kb', whose first character does not recur, provided no value contains the separator following it).",
  "all templates and option values satisfying the separator condition",
  "all strings",
  ["foxes/utils/factory.py: Factory.check_match"])
p("Only matching names create models",
  "A name is accepted by a factory only if it is an instance of its template; names with extra trailing text are rejected.",
  "all names and templates",
  "all strings",
  ["foxes/utils/factory.py: Factory.check_match"])
p("Factory dictionary lookup is consistent",
  "For the model book's factory dictionaries, membership implies successful lookup, a lookup returns the same object every time afterwards, and previously stored entries are never replaced by lookups.",
  "all histories of lookups and insertions",
  "history property",
  ["foxes/utils/factory.py: FDict.__contains__, __getitem__, add_factory"])
p("State weights sum to one",
  "For single, table (without weights), scan and wind-rose states the statistical weights are non-negative and sum to one, and a scan visits each combination exactly once.",
  "all table lengths and all lists of scan values",
  "all sizes",
  ["foxes/input/states/states_table.py","foxes/input/states/scan.py","foxes/input/states/single.py"])
p("Table columns stay aligned with their variables",
  "Each variable delivered by tabular states has the values of its own table column.",
  "all output variable sets, column mappings and profile configurations",
  "all configurations",
  ["foxes/input/states/states_table.py: StatesTable.load_data, calculate"])
p("Layouts place turbines as specified",
  "Row, grid and ring layouts place exactly the requested number of turbines at the specified spacing, numbered consecutively and uniquely named.",
  "all counts and spacings",
  "all sizes",
  ["foxes/input/farm_layout/row.py: add_row","foxes/input/farm_layout/grid.py: add_grid","foxes/input/farm_layout/ring.py: add_ring","foxes/core/wind_farm.py: WindFarm.add_turbine"])
p("Adding a model to one turbine affects only that turbine",
  "Calling add_model on a turbine changes the model list of this turbine and of no other, however the turbines were created.",
  "all histories of turbine creation and add_model calls",
  "aliasing over object histories",
  ["foxes/core/turbine.py: Turbine.__init__, add_model","foxes/input/farm_layout/row.py: add_row"])
p("Data containers keep consistent sizes",
  "After any accepted sequence of additions to a data container, all arrays sharing a dimension have the same length along it (or length one where broadcasting is permitted), and a rejected addition raises.",
  "all histories of additions",
  "history property over shapes",
  ["foxes/core/data.py: Data.add, _run_entry_checks"])
p("Sub-selected data lookups return the selection",
  "Requesting a turbine-dependent variable for one downwind index returns the slice at that index, whichever data source (model, farm or target data) provides it.",
  "all sources, shapes and indices",
  "all lookup orders and sources",
  ["foxes/core/model.py: Model.get_data"])
p("Upper turbulence limit is an upper limit",
  "The turbulence intensity derived from friction velocity never exceeds the configured maximum.",
  "all friction velocities, wind speeds and limits",
  "continuous domain",
  ["foxes/models/point_models/ustar2ti.py: Ustar2TI.calculate"])
p("Mirrored wakes leave the farm geometry untouched",
  "Evaluating ground or ceiling mirror wakes restores the turbine heights afterwards, and reflecting twice at the same plane is the identity.",
  "all farms, mirror heights and wake models",
  "state restoration for all inputs",
  ["foxes/models/ground_models/wake_mirror.py"])
p("Farm data model chains accumulate",
  "A list of farm data models run in sequence behaves like each model run on the outputs of the previous ones, the reported output variables are the duplicate-free union in first-occurrence order, and a wrong number of parameter sets is rejected.",
  "all lists of models and all variables",
  "unbounded lists",
  ["foxes/core/farm_data_model.py: FarmDataModelList"])
p("Every turbine has exactly one turbine type",
  "A farm calculation only starts if each turbine's model list names exactly one turbine type; otherwise it is rejected, naming the turbine.",
  "all farms and model lists",
  "all lists",
  ["foxes/core/farm_controller.py: FarmController.find_turbine_types"])
p("Wake growth parameter rule",
  "A wake growth rate is either a constant, or ka*TI+kb; ambiguous or incomplete specifications are rejected at construction.",
  "all combinations of given/omitted parameters",
  "all combinations and values",
  ["foxes/core/wake_model.py / foxes/models/wake_models: WakeK"])
p("A rejected engine can be entered later",
  "An engine whose with-block entry was rejected because another engine was active can be entered after the other engine was left.",
  "all finite histories of lifecycle operations over any number of engines",
  "needs a history in which a rejected entry is followed by the exit of the active engine",
  ["foxes/core/engine.py: Engine.__enter__, __exit__, initialize"])
p("Finalising one model leaves other initialised models complete",
  "After finalising a model, every model that still reports initialised has all its sub-models initialised, also if sub-models are shared.",
  "all model graphs with shared sub-models and all finalize calls",
  "sharing patterns of sub-models are unbounded",
  ["foxes/core/model.py: Model.finalize"])
p("Chunk store lookup with error=False never raises",
  "Looking up chunk data with error=False returns None instead of raising whenever the data is not available, for every store content.",
  "all store contents including the empty store, all look-back distances",
  "the empty store with a look-back is a corner case of an unbounded state space",
  ["foxes/core/algorithm.py: Algorithm.find_chunk_in_store, get_from_chunk_store"])
p("Merging worker chunk stores loses nothing",
  "After an iterative run over a process pool the algorithm's chunk store contains for every chunk exactly the data its worker stored last, for any number of chunks and any earlier content.",
  "all chunk lists with distinct offsets, all stored data, all earlier contents",
  "unbounded chunk counts and contents",
  ["foxes/core/engine.py: Engine.combine_results","foxes/engines/pool.py: _run"])
p("Thread pool workers do not disturb each other",
  "With the threads engine, each chunk's calculation finds the data it stored itself, for every interleaving of the workers, in one-shot and in iterative runs.",
  "all numbers of workers and all thread interleavings",
  "thread interleavings cannot be enumerated by tests",
  ["foxes/engines/pool.py: _run","foxes/engines/futures.py: ThreadsEngine","foxes/core/algorithm.py: Algorithm.reset_chunk_store"])
p("The iterative algorithm returns its last iteration in farm order",
  "The farm results returned by an iterative calc_farm are the results of the last iteration it performed (the ones the convergence check accepted), in farm order, and agree with the downwind-ordered results returned by ret_dwnd_order=True.",
  "all iteration histories: any number of iterations, any convergence verdicts and blocks, all wake models",
  "depends on the whole iteration history; the difference is hidden below the convergence tolerance in tests",
  ["foxes/algorithms/iterative/iterative.py: Iterative.calc_farm, _launch_parallel_farm_calc"])
p("Iterative results come back in farm order",
  "Every farm calculation of the iterative algorithm, including ambient ones, ones with re-evaluated ambient results and ones limited to a single iteration, returns results in farm order.",
  "all turbine orders, all iteration limits, ambient flag",
  "the order only shows for states whose processing order is not the identity",
  ["foxes/algorithms/iterative/iterative.py: Iterative._collect_farm_models, calc_farm"])
p("Wake model list order does not matter",
  "Farm results do not depend on the order in which the wake models are listed, for wake models with commuting contributions to different variables.",
  "all lists of wake models, all farms",
  "ranges over all wake model pairs and farms",
  ["foxes/algorithms/downwind/models/farm_wakes_calc.py: FarmWakesCalculation.calculate"])
p("Upstream results survive farm extension in inhomogeneous wind",
  "Adding a turbine that is downstream of all existing turbines leaves the results of all existing turbines unchanged, also when the wind direction varies between turbines.",
  "all farms and wind direction fields",
  "ranges over all layouts and wind fields",
  ["foxes/models/wake_frames/rotor_wd.py: RotorWD.calc_order"])
p("Mixed up- and downwind wake models are rejected",
  "A downwind calculation with both upstream-acting and downstream-acting wake models raises KeyError and every other combination of wake models is computed, whatever the order and number of the models.",
  "all lists of wake models, all farms",
  "ranges over all lists of wake models",
  ["foxes/algorithms/downwind/models/farm_wakes_calc.py: FarmWakesCalculation.calculate"])
p("Late pre-rotor models are rejected",
  "A turbine whose model list contains a pre-rotor model after a post-rotor model is rejected (ValueError) instead of being silently evaluated in another order.",
  "all turbine model lists, including composite models",
  "must hold for every list of models and every composition",
  ["foxes/core/farm_controller.py: FarmController.collect_models"])
p("A repeated model keeps its own state selections",
  "When the same turbine model is listed several times for a turbine with different state selections, each evaluation uses its own selection.",
  "all turbine model lists and selections",
  "depends on arbitrary repetition patterns in model lists",
  ["foxes/core/farm_controller.py: FarmController._analyze_models, __get_pars"])
p("A speed-up never lowers the wind speed",
  "A wake model contribution that increases the wind speed (blockage side flow) never lowers the resulting wind speed, whatever the wake superposition.",
  "all contributions, ambient values, limits and superpositions",
  "sign cases across all superpositions and all accumulated states",
  ["foxes/models/wake_superpositions/ws_quadratic.py", "foxes/models/wake_superpositions/ws_max.py", "foxes/models/wake_superpositions/ws_pow.py", "foxes/models/wake_superpositions/ws_linear.py"])
p("Product superposition is independent of the chunking",
  "The wake delta of a (state, target) pair under the product superposition does not depend on which other states or targets are evaluated in the same chunk.",
  "all arrays of contributions and all chunkings",
  "depends on the content of unrelated array elements",
  ["foxes/models/wake_superpositions/ws_product.py: WSProduct.add_wake", "foxes/models/wake_models/top_hat.py: TopHatWakeModel.calc_wakes_x_r"])
p("Top-hat partial wake weight refers to the target rotor",
  "The top-hat partial wake weight is the fraction of the target turbine's rotor disc that lies inside the wake, also when turbines have different rotor diameters.",
  "all rotor diameters of source and target, wake radii and distances",
  "ranges over all combinations of two different turbine types",
  ["foxes/models/partial_wakes/top_hat.py: PartialTopHat.get_wake_points, compute_wakes"])
p("Cubic solver finds the real roots",
  "For every batch of cubics the solver returns, and for every cubic it returns a real root (a cubic always has one).",
  "all batches of real coefficients with non-zero leading coefficient",
  "degenerate coefficient combinations, mixed within batches of any size",
  ["foxes/utils/cubic_roots.py: cubic_roots"])
p("Power mask thrust is consistent with the masked power",
  "After a power mask the thrust coefficient of each affected turbine is between 0 and 1 and is the one momentum theory assigns to the masked power at the turbine's efficiency; lowering the power never raises the thrust.",
  "all masked power values, wind speeds, densities, rotor sizes and efficiencies",
  "continuous domain through a cubic equation",
  ["foxes/models/turbine_models/power_mask.py: PowerMask.calculate","foxes/utils/cubic_roots.py: cubic_roots"])
p("Rotor effective wind speed is never negative",
  "The rotor effective wind speeds (REWS, REWS2, REWS3) of a turbine are never negative, whatever its yaw angle and the wind direction, and do not depend on which one-point rotor model is used.",
  "all wind directions, yaw angles and wind speeds",
  "continuous domain of misalignment angles",
  ["foxes/models/rotor_models/centre.py: CentreRotor.eval_rpoint_results","foxes/core/rotor_model.py: RotorModel.eval_rpoint_results"])
p("Rotor points lie on the rotor",
  "All rotor points lie in the plane through the hub perpendicular to the rotor axis, at the distance given by their design coordinates, and their weighted centre is the hub.",
  "all hub positions, yaw angles, rotor diameters and rotor discretisations",
  "continuous domain and all resolutions",
  ["foxes/core/rotor_model.py: RotorModel.get_rotor_points"])
p("Superpositions compute the combination they are named after",
  "For any number of wakes the linear, quadratic, maximum and power superpositions of wind deficits and of added turbulence return the sum, root of the sum of squares, largest value and p-norm of the individual contributions (scaled with the chosen reference, and combined with the ambient turbulence as configured).",
  "all lists of contributions, ambient values, scales and exponents",
  "all numbers of overlapping wakes and all real contributions",
  ["foxes/models/wake_superpositions/*.py"])
p("Wind profiles are non-negative",
  "Every vertical wind profile yields non-negative wind speeds at all heights from the roughness length upwards, for non-negative reference wind or friction velocity.",
  "all heights, roughness lengths, stability lengths and references",
  "continuous domain; the failure sits near the ground",
  ["foxes/utils/abl/unstable.py: psi, calc_ws","foxes/models/vertical_profiles/abl_log_unstable_ws.py"])
p("Distances to compound boundaries are safe and, outside unions, exact",
 "For every nested union, intersection, difference or inverse of half planes, circles and polygons, no point nearer to a query point than the reported boundary distance differs from it in membership; outside a union of shapes the reported distance is the exact distance to the union, and inside it is the distance to the union's boundary.",
 "every nested geometry expression and every query point",
 "Nested expressions and points are unbounded; the loop over members keeps state that depends on their order.",
 ["foxes/utils/geom2d/area_geometry.py:AreaUnion.points_distance","foxes/utils/geom2d/area_geometry.py:InvertedAreaGeometry.points_distance"])
p("Capacity from an automatically determined nominal power is at most one",
 "If a turbine type is created from a curve file without a nominal power, the nominal power is the largest power of its curve in the unit of the type, so that the capacity at every wind speed is at most one.",
 "every power curve and every power unit",
 "Curves are unbounded tables and the unit is a user choice; the tests use one turbine with a given nominal power.",
 ["foxes/models/turbine_types/PCt_file.py:PCtFile.load_data","foxes/models/turbine_types/PCt_from_two.py:PCtFromTwo.load_data","foxes/output/farm_results_eval.py:FarmResultsEval.add_capacity"])
p("Wake growth parameters in model names mean what is documented",
 "A wake model name with a growth suffix (_k, _ka, _ka.._kb, _ambka, _ambka.._kb or none) creates the model with exactly these parameters, a number written with a leading zero like 004 meaning 0.04; names that cannot be understood, e.g. with a decimal point as in the printed examples, are rejected.",
 "every base name, superposition name and number",
 "Names are unbounded strings tried against several templates in an order that depends on registration.",
 ["foxes/utils/factory.py:WakeKFactory.__init__","foxes/utils/factory.py:FDict.__getitem__","foxes/utils/factory.py:FDict.add_factory"])
p("A profile can stand in for a table column",
 "Tabular states accept an output variable that has no table column if a vertical profile is given for it, and then deliver the profile's values; without a profile a missing column is rejected.",
 "every table, variable mapping and set of profiles",
 "Tables, mappings and the (hash dependent) order of the variables are unbounded.",
 ["foxes/input/states/states_table.py:StatesTable.load_data","foxes/input/states/states_table.py:StatesTable.calculate","foxes/core/algorithm.py:Algorithm.get_models_data"])
p("States can be initialised again",
 "A states object that was initialised and finalised can be initialised again, e.g. in a second algorithm, with the same result.",
 "every list of profile specifications",
 "A history property over all profile specifications; user dictionaries are mutated by the first use.",
 ["foxes/input/states/states_table.py:StatesTable.initialize","foxes/input/states/single.py:SingleStateStates.initialize"])
p("Farm bounds enclose every turbine with the requested margin",
  "The bounding box WindFarm.get_xy_bounds returns (without a boundary geometry) contains every turbine, extended by extra_space metres or by that many of its own rotor diameters, and is not larger than needed.",
  "every non-empty farm, every margin, every axis", "the set of coordinates and margins is unbounded; a test checks one farm",
  ["foxes/core/wind_farm.py:WindFarm.get_xy_bounds"])
p("Generated coordinates enumerate their dimension",
  "A data container that generates the coordinate of a dimension itself holds one index per element of the dimension, also after later additions.",
  "all histories of additions", "depends on the order in which arrays of different lengths are added",
  ["foxes/core/data.py:Data._auto_update"])
p("Position array follows X, Y and H",
  "The combined position array of a data container holds the entries X, Y and H, also after one of them is replaced through the API.",
  "all containers and histories of additions", "history property; unit tests add each variable once",
  ["foxes/core/data.py:Data._auto_update, add"])
p("State counters of slices",
  "A slice of a data container along the states is accepted only if it selects a non-empty run of consecutive states, and then the j-th selected state keeps its global counter.",
  "all selections and chunk offsets", "unbounded selections",
  ["foxes/core/data.py:Data.get_slice"])
p("Extra loop axes of size one are removed",
  "Axes of size one that were added for loop dimensions not among the declared dimensions are removed on entry, keeping the values.",
  "all shapes, loop dimensions and declared dimensions", "all combinations of missing loop dimensions",
  ["foxes/core/data.py:Data._run_entry_checks"])
p("Explicit model parameters take precedence",
  "A parameter given to a wake model (e.g. a constant wake growth k) is used, whatever variables the farm data contains.",
  "all models, wake frames, farm data and targets", "depends on the combination of wake frame and farm variables",
  ["foxes/core/model.py:Model.get_data", "foxes/core/wake_model.py:WakeK.__call__"])
p("Dynamic wakes use the data of the state that caused them",
  "When the wake frame says which state caused the wake at a target point, turbine data are taken at that state: from the previous iteration if the state is in an earlier chunk, from the current farm data otherwise; for averaged targets the state lies between those of the target's points.",
  "all states, chunks, targets and source states", "all chunkings and source states",
  ["foxes/core/model.py:Model.get_data"])
p("A mirror model without mirrors is no ground model",
  "A wake mirror with an empty list of heights gives the same farm results as no ground model: the direct wake of a turbine does not depend on the choice of ground model.",
  "all partial wakes models and wake models", "ranges over all combinations of ground, partial wakes and wake models",
  ["foxes/models/ground_models/wake_mirror.py:WakeMirror.contribute_to_farm_wakes", "foxes/core/ground_model.py:GroundModel.contribute_to_farm_wakes"])
p("Sums of data models behave like chains",
  "The sum a + b + c of farm (or point) data models calculates the same as the chain [a, b, c].",
  "all models and data", "all models; the nested structure only appears with three or more summands",
  ["foxes/core/farm_data_model.py:FarmDataModel.__add__, FarmDataModelList.calculate", "foxes/core/point_data_model.py:PointDataModelList.calculate"])
p("A mirrored wake is symmetric about the mirror plane",
  "For wakes that depend on the vertical offset only through its size, direct wake plus mirror wake take the same value at a point and at its reflection in the mirror plane.",
  "all wake shapes, hub heights, mirror heights and points", "continuous domain",
  ["foxes/models/ground_models/wake_mirror.py:WakeMirror"])
p("Wake delta point variables",
  "The wake deltas point model returns the difference of each variable to its ambient value, divided by the ambient value if normalisation is requested.",
  "all variables and values", "all variable lists", ["foxes/models/point_models/wake_deltas.py:WakeDeltas.calculate"])
p("Axisymmetric partial wakes weigh the wake by covered rotor area","For every wake position, rotor diameter and number of radii, the rings used by the axisymmetric partial wakes model cover the rotor disc (of the wake causing turbine's size) without overlap, the weight of a ring is the fraction of the disc in it, the weights are non-negative and sum to one, the wake model is evaluated inside the ring, and the averaged delta lies between the smallest and the largest wake value.","all radii counts >= 1, diameters, downwind distances and lateral distances, wake centre strictly inside or outside of the disc","lens areas are transcendental functions of continuous parameters; a test samples a few positions",["foxes/models/partial_wakes/axiwake.py: PartialAxiwake.contribute","foxes/utils/two_circles.py: calc_area"])
p("Axisymmetric partial wakes have no blind position","A wake of constant strength across the target's rotor is felt fully at every lateral position of the rotor. (False: a rotor whose rim passes exactly through the wake centre feels nothing.)","all diameters, radii counts and lateral positions","the failing position is a single point of a continuum",["foxes/models/partial_wakes/axiwake.py: PartialAxiwake.contribute"])
p("Axisymmetric partial wakes average over the target's rotor","The weights refer to the rotor of the turbine that feels the wake. (False for farms with different rotor diameters: the disc has the diameter of the wake causing turbine.)","all pairs of diameters and wake positions","needs all diameter pairs; uniform farms hide it",["foxes/models/partial_wakes/axiwake.py: PartialAxiwake.contribute","foxes/core/model.py: Model.get_data"])
p("Bastankhah 2016 deficits are bounded and recover","For physical induction models and every parameter choice, the wind deficit of the Bastankhah 2016 wake lies in (-1, 0], is strongest on the wake axis, recovers monotonically downstream through the near and the far wake, and vanishes upstream and for idle turbines.","all positions, thrust coefficients in (0, 1], turbulence intensities, growth rates, yaw angles below 90 degrees","the formulas are piecewise transcendental functions of seven parameters and three coordinates",["foxes/models/wake_models/wind/bastankhah16.py: Bastankhah2016Model.calc_data, Bastankhah2016.calc_wakes_x_yz"])
p("Bastankhah 2016 wakes are continuous at the end of the near wake","Deflection and wind deficit have no jump at the transition from the near to the far wake. (True for the deflection; the deficit of a yawed turbine jumps above and below the wake centre, since the near wake uses the lateral width in both directions.)","all parameters and lateral positions","a jump at a computed transition point is invisible to sampled positions",["foxes/models/wake_models/wind/bastankhah16.py: Bastankhah2016Model.calc_data, Bastankhah2016.calc_wakes_x_yz"])
p("Yawed wake coordinates are shifted base coordinates","For every target point the yawed wake frame returns the base frame's coordinates with the lateral one reduced by the deflection; without yaw misalignment it returns the base frame's coordinates. (True for targets with one point; for targets with several points all of them get the same lateral coordinate, even without yaw.)","all rotor positions, wind directions, yaw angles, targets, point sets and weights","continuous positions, arbitrary point sets",["foxes/models/wake_frames/yawed_wakes.py: YawedWakes.get_wake_coos, _update_y","foxes/models/wake_frames/rotor_wd.py: RotorWD.get_wake_coos"])
p("Centreline points of a yawed wake lie on the wake's centreline","The points returned by get_centreline_points have lateral wake frame coordinate zero. (False: they lie at minus twice the deflection.)","all rotor positions, wind directions, deflections and point sequences","a sign error is only visible for non-zero yaw; must hold for all",["foxes/models/wake_frames/yawed_wakes.py: YawedWakes.get_centreline_points, _update_y"])
p("Each Bastankhah 2016 model uses its own parameters","In a calculation with several wake models of this type, each contribution is calculated with the parameters of that model. (False: the data calculated by the first model for the same coordinates is reused by the others.)","all sequences of wake model evaluations and parameter sets","depends on the history of evaluations within a chunk",["foxes/models/wake_models/wind/bastankhah16.py: Bastankhah2016Model.has_data, calc_data, Bastankhah2016.calc_wakes_x_yz"])
p("IEC wake turbulence is bounded, confined and decays","For every thrust, wind speed, rotor diameter, opening angle or wake growth rate, the turbulence intensity added by the IEC (2005 and 2019/Frandsen) model lies between 0 and 2/3, is zero upstream, outside of the wake radius and for idle turbines, positive inside, and strictly decreases downstream; the 2019 version grows with thrust.","all positive diameters, non-negative wind speeds, thrust coefficients, positions, both opening types","continuous parameter space",["foxes/models/wake_models/ti/iec_ti.py: IECTIWake.calc_wake_radius, calc_centreline","foxes/models/wake_models/top_hat.py: TopHatWakeModel.calc_wakes_x_r"])
p("Crespo-Hernandez wake turbulence has no jump and decays","The added turbulence lies between 0 and a_near, is continuous downstream (also at the end of the near wake) and never increases downstream, for all positive amplitudes and a negative distance exponent. (True when the near wake length is computed; false for every user-given near_wake_D other than the computed value.)","all model constants of the usual signs, thrusts, turbulence intensities, positions","the jump sits at one computed point; must hold for all parameters",["foxes/models/wake_models/ti/crespo_hernandez.py: CrespoHernandezTIWake.calc_wake_radius, calc_centreline"])
p("TurbOPark wakes expand with the total turbulence intensity","The wake width starts at the initial width and its derivative is k/I0 times the root of the sum of squares of ambient turbulence and the Frandsen wake-added turbulence (equal to the IEC 2019 model's for the default constants); hence it grows at least linearly with k, the deficit lies in [-1, 0], recovers on the axis, vanishes upstream, and is never deeper on the axis than the Gaussian wake of the same growth rate.","all positive constants, turbulence intensities, thrusts, positions and physical induction models","an integrated formula (with logarithm) against its differential law over a continuum",["foxes/models/wake_models/wind/turbopark.py: TurbOParkWake.calc_amplitude_sigma","foxes/models/wake_models/gaussian.py: GaussianWakeModel.calc_wakes_x_r"])
p("Centreline integrals are right-point sums, independent of the other targets","calc_centreline_integral returns for each target the step-dx right-point sum of the variable up to the target's own coordinate, whatever other targets are in the call: exact for constants, linear, monotone, with an error of at most L*dx*x for an L-Lipschitz variable. (True up to the maximal wake length; beyond it, the result is zero, and the TurbOParkWakeIX wake width falls back to its initial value.)","all variables along the centreline, step sizes, maximal lengths, and sets of targets","all target sets (chunkings) and step sizes",["foxes/core/wake_frame.py: WakeFrame.calc_centreline_integral","foxes/models/wake_models/wind/turbopark.py: TurbOParkWakeIX.calc_amplitude_sigma"])
p("Vortex sheet blockage is bounded, decays and is mirrored","The wind speed change lies within plus or minus the induction factor, is a reduction upstream that grows monotonically towards the rotor on every line along the wind, decays with the squared distance, is mirrored with opposite sign behind the rotor plane beside the rotor, and is zero directly behind the rotor.","all positions, diameters, thrusts, induction models","continuous positions",["foxes/models/wake_models/induction/vortex_sheet.py: VortexSheet.contribute"])
p("Self-similar blockage is bounded, decays and is mirrored","For both self-similar models the wind speed change is bounded (by the induction factor of the scaled thrust; below 1/2 for the 2020 version), upstream it is a reduction that decays with the radius, on the axis it grows towards the rotor (first version), it is mirrored with opposite sign behind the rotor plane beside the rotor, and is zero directly behind; the 2020 thrust factor lies between 1 and 1.4.","all positions, radii, thrusts in [0, 1], induction models","continuous positions and transcendental shape functions",["foxes/models/wake_models/induction/self_similar.py: SelfSimilar","foxes/models/wake_models/induction/self_similar2020.py: SelfSimilar2020"])
p("Rathmann blockage grows towards the rotor","On the rotor axis the reduction grows monotonically towards the rotor. (False: within one rotor radius it falls to zero at the rotor, since the sine of the half angle is taken from the wrong branch; it holds farther upstream, and the change is bounded by the induction factor over root two and mirrored behind the rotor plane.)","all upstream positions, radii and thrusts","the formula is right at the usual upstream sampling distances",["foxes/models/wake_models/induction/rathmann.py: Rathmann.contribute"])
p("Rankine half body never reverses the flow","The velocity change caused by one turbine is never larger than its wind speed (plus the code's 1e-15 offset and a relative 1e-7), upstream it slows down, behind the rotor plane it speeds up, and inside the body up to the rotor plane it is full stagnation.","all positions, wind speeds, diameters of at least 1 m, thrust coefficients","the body shape couples all parameters; singular close to the rotor",["foxes/models/wake_models/induction/rankine_half_body.py: RankineHalfBody.contribute"])
p("Dynamic wakes follow the ambient wind",
  "With the dynamic wakes frame, every wake point used in a calculation is where the ambient wind of the successive states carries the air that left the rotor, and its wake length is the length of that path, whatever the chunks of states, the order in which they are calculated and whether they see current or outdated data of other chunks.",
  "all time series, wind fields, rotor positions, chunk sizes and schedules", "all schedules of chunks over iterations and all wind fields",
  ["foxes/models/wake_frames/dynamic_wakes.py:DynamicWakes._calc_wakes"])
p("Converged dynamic wakes are complete",
  "When no chunk blocks convergence any more, each chunk knows the wake points of all states up to its own, up to the maximal age and at least until they have the maximal length; wake coordinates that only involve such points do not depend on how the states are chunked.",
  "all time series, wind fields, chunk sizes, schedules and targets", "quantifies over the fixed points of a distributed iteration",
  ["foxes/models/wake_frames/dynamic_wakes.py:DynamicWakes._calc_wakes, DynamicWakes.get_wake_coos"])
p("Dynamic wakes settle within the iterations",
  "In calculations with worker processes, the exchange of wake points between chunks comes to rest after a number of iterations that is linear in the number of chunks, and the default number of iterations suffices for it.",
  "all numbers of chunks, chunk sizes and time series", "the number of iterations needed grows with the number of chunks",
  ["foxes/models/wake_frames/dynamic_wakes.py:DynamicWakes._calc_wakes", "foxes/algorithms/iterative/iterative.py:Iterative.calc_farm"])
p("Dynamic wake results do not depend on the chunk size",
  "The chunk sizes are a matter of performance: converged dynamic wake coordinates are the same for every partition of the states into chunks.",
  "all time series and pairs of partitions of the states", "ranges over pairs of partitions",
  ["foxes/models/wake_frames/dynamic_wakes.py:DynamicWakes._calc_wakes"])
p("Dynamic wakes in steady wind are straight wakes",
  "In steady, uniform wind the dynamic wake frame's coordinates agree with those of the default frame (up to the regularisation 1e-14) for all targets within the part of the wake that has been emitted so far, including with the default choice of the maximal age.",
  "all wind directions and speeds, time steps, chunkings and targets", "continuous domain, all chunkings",
  ["foxes/models/wake_frames/dynamic_wakes.py:DynamicWakes.initialize, DynamicWakes.get_wake_coos", "foxes/models/wake_frames/rotor_wd.py:RotorWD.get_wake_coos"])
p("Point results at a hub are the turbine's inflow",
  "Evaluating point results at the rotor centre of a turbine gives the same values the farm calculation gave this turbine as inflow (centre rotor, rotor point partial wakes).",
  "all farms, states, wake models, superpositions and turbines", "must hold for all farms, wake deltas and combinations of wake models",
  ["foxes/algorithms/downwind/models/point_wakes_calc.py:PointWakesCalculation.calculate", "foxes/algorithms/downwind/models/farm_wakes_calc.py:FarmWakesCalculation.calculate", "foxes/models/partial_wakes/rotor_points.py:RotorPoints.finalize_wakes", "foxes/models/rotor_models/centre.py:CentreRotor"])
p("Segregated partial wakes average the wake effect",
  "Segregated partial wakes (top hat, axiwake, grid) combine the mean wake effect over the partial wake points with the rotor's ambient results, and the result does not depend on how the points of the rotor and of the partial wakes are enumerated.",
  "all numbers of points, weights, ambient fields and deltas", "all point sets and enumerations",
  ["foxes/models/partial_wakes/segregated.py:PartialSegregated.finalize_wakes"])
p("Ambient point results need no farm results",
  "Point results of a purely ambient calculation can be evaluated without farm results.",
  "all points and states", "API contract over all call histories",
  ["foxes/algorithms/downwind/downwind.py:Downwind.calc_points"])
p("Broadcast results survive recombination",
  "Results of chunks whose states or target dimension has broadcast length one are recombined such that every state, turbine and point finds its own value, for all chunk partitions.",
  "all chunk partitions, shapes and values", "all partitions into state and target chunks",
  ["foxes/core/engine.py:Engine.combine_results"])
p("Turbine models act on exactly the turbines and states that name them",
  "In every chunk, for every downwind order, and both when the whole farm and when a single turbine is evaluated, a turbine model is applied to exactly those (state, turbine) pairs for which the turbine lists it.",
  "all farms, model lists, state selections, chunk partitions, downwind orders", "all chunkings and orders",
  ["foxes/core/farm_controller.py:FarmController.__get_pars, collect_models", "foxes/algorithms/downwind/models/init_farm_data.py:InitFarmData.calculate"])
p("Models with two dimensional tables can be used in wind farms",
  "The turbine types WsRho2PCtFromTwo and WsTI2PCtFromTwo and the turbine model TableFactors can be used by all turbines of a farm, with wakes.",
  "all farms, tables and data", "selection objects depend on the use of the model by other turbines",
  ["foxes/models/turbine_types/wsrho2PCt_from_two.py:WsRho2PCtFromTwo.calculate", "foxes/models/turbine_types/wsti2PCt_from_two.py:WsTI2PCtFromTwo.calculate", "foxes/models/turbine_models/table_factors.py:TableFactors.calculate"])
p("Two dimensional curves are evaluated at the turbine's own data",
  "Power and thrust coefficient are the table values at the turbine's respective wind speed variable and density (or turbulence intensity), zero outside of the wind speed range; the density correction applies to each turbine separately.",
  "all tables, wind speeds, densities, turbulence intensities, selections", "needs all combinations of turbines inside and outside of the table range",
  ["foxes/models/turbine_types/wsrho2PCt_from_two.py:WsRho2PCtFromTwo.calculate", "foxes/models/turbine_types/wsti2PCt_from_two.py:WsTI2PCtFromTwo.calculate"])
p("Sector management ranges are sectors",
  "A sector management rule from angle a to angle b applies exactly if the wind direction lies in the sector from a to b, however the angles are given modulo 360, including sectors that contain north and the full circle.",
  "all real angles, periods and rules", "continuous, periodic domain",
  ["foxes/models/turbine_models/sector_management.py:SectorManagement.initialize, SectorManagement.calculate"])
p("Wake growth from turbulence intensity",
  "The kTI turbine model sets k = kTI * TI + kb for the turbines that use it, with kTI from the constructor or the farm data, TI from the constructor's ti_val if given, else from the farm data, and leaves other turbines unchanged.",
  "all parameters, farm data and selections", "all combinations of constructor arguments and farm data",
  ["foxes/models/turbine_models/kTI_model.py:kTI.calculate"])
p("One-point flow stays within the time series and reproduces it at the reference point",
  "Flow states created from a time series at one reference point give, at every point and state, values within the range of the time series; constant series give constant fields; and at the reference point in state s the value is that of state s.",
  "all time series, wind vectors, points and states", "all points and wind histories",
  ["foxes/input/states/one_point_flow.py:OnePointFlowStates.calc_states_indices, OnePointFlowStates.calculate"])
p("One-point flow carries the time series with the wind",
  "At a point, the value is the one of the time series at the time at which the air passed (or will pass) the reference point, interpolated linearly in time; air that passed before the series starts has the data of the first state.",
  "all time series, constant winds, points and states", "continuous domain of points, all time series",
  ["foxes/input/states/one_point_flow.py:OnePointFlowStates.calc_states_indices, OnePointFlowStates.calculate, OnePointFlowStates._precalc_data", "foxes/models/wake_frames/timelines.py:Timelines._precalc_data"])
p("Timelines wake coordinates follow the path of the air",
  "For every wind history the wake coordinates of a point, if any, are those relative to the path of air that passed the rotor at an earlier or the present state: path length plus distance ahead, and lateral distance; later states and the split into chunks play no role.",
  "all wind histories, states, points, chunk partitions and maximal lengths", "all histories",
  ["foxes/models/wake_frames/timelines.py:Timelines.get_wake_coos"])
p("Timelines in steady wind are straight wakes",
  "In steady wind the wake coordinates are the straight downwind and lateral distances, for all points from one step upstream of the rotor up to the distance travelled since the start of the series (and the maximal length), and no wake elsewhere.",
  "all wind vectors, time steps, states and points", "continuous domain, unbounded number of states",
  ["foxes/models/wake_frames/timelines.py:Timelines.get_wake_coos"])
p("Timelines centreline points lie on the centreline",
  "The centreline point for distance z has wake coordinates (z, 0), for every state and independently of the split of the states into chunks.",
  "all wind histories, distances, states and chunk partitions", "all histories and chunkings",
  ["foxes/models/wake_frames/timelines.py:Timelines.get_centreline_points"])
p("Streamline wakes follow the wind direction field",
  "Streamlines follow the wind direction of the states in equal steps; wake coordinates are those relative to the nearest streamline point; for a uniform wind direction they are the straight downwind and lateral distances of all points from one step upstream up to the streamline length.",
  "all direction fields, steps, rotor positions and points", "continuous domain, unbounded streamlines",
  ["foxes/models/wake_frames/streamlines.py:Streamlines2D._calc_streamlines, Streamlines2D._calc_coos"])
p("Farm calculations with streamline wakes have wakes",
  "With the streamlines wake frame, turbines in the wake of others have reduced wind speed in calc_farm of the Downwind algorithm.",
  "all farms, states and streamline steps", "depends on the history of the model data within the calculation",
  ["foxes/models/wake_frames/streamlines.py:Streamlines2D.get_streamline_data, Streamlines2D.calc_order", "foxes/algorithms/downwind/models/init_farm_data.py:InitFarmData.calculate", "foxes/core/engine.py:Engine.get_chunk_input_data"])
p("Streamline turbine order is the downwind order",
  "The order of turbines derived from streamlines is the downwind order: no turbine is evaluated before a turbine that is upstream of it.",
  "all farms, positions and directions", "all layouts and orders",
  ["foxes/models/wake_frames/streamlines.py:Streamlines2D.calc_order"])
p("Sequential loop hands out every state once",
  "A loop over the Sequential algorithm hands out the results of every state exactly once and in the order of the states, and the stored farm and point results are then those of all states; this also holds if the loop is left and resumed, or if a state's calculation fails and is tried again. After its end, next raises StopIteration.",
  "all state indices, all sequences of iter and next calls, all failures of states",
  "Loops can be interrupted and resumed at any state; tests run one complete loop.",
  ["foxes/algorithms/sequential/sequential.py:Sequential.__iter__","foxes/algorithms/sequential/sequential.py:Sequential.__next__"])
p("A second sequential loop repeats the first",
  "Looping a second time over the same Sequential algorithm object gives the same results as the first loop.",
  "all numbers of states, wake frames, points",
  "It concerns what models remember between loops of any length.",
  ["foxes/algorithms/sequential/sequential.py:Sequential.__iter__","foxes/models/wake_frames/seq_dynamic_wakes.py:SeqDynamicWakes.initialize"])
p("Sequential reproduces the calculation of all states",
  "For models without memory, the Sequential algorithm gives for each state the results of a calculation of all states at once, for all chunk sizes, also for input that is given per state, e.g. turbine positions of shape (n_states, 2).",
  "all models, numbers of states and chunk sizes",
  "Tests compare a few cases with state independent turbine positions.",
  ["foxes/algorithms/sequential/sequential.py:Sequential.__next__","foxes/core/engine.py:Engine.get_chunk_input_data","foxes/algorithms/downwind/models/init_farm_data.py:InitFarmData.calculate"])
p("Sequential dynamic wakes follow the wind",
  "With SeqDynamicWakes, the wake of a turbine in a state consists of the air that left its rotor in this and all earlier states, carried by the wind of each state; a point's downwind coordinate is the path length of the nearest such position plus the distance ahead of it, if less than one time step away. In steady wind the coordinates are those of straight wakes up to the front of the wake.",
  "all time series of wind fields, time steps, rotor positions and points",
  "Statement over time series of any length and arbitrary wind fields.",
  ["foxes/models/wake_frames/seq_dynamic_wakes.py:SeqDynamicWakes.get_wake_coos"])
p("Sequential dynamic wakes of a farm are those of its turbines",
  "With SeqDynamicWakes, the wake coordinates of a point with respect to a turbine are those of this turbine alone, whatever the other turbines and the changes of wind direction.",
  "all farms, orders of turbines in each state, points",
  "The order of turbines changes with the wind; needs all histories.",
  ["foxes/models/wake_frames/seq_dynamic_wakes.py:SeqDynamicWakes.get_wake_coos","foxes/algorithms/downwind/models/init_farm_data.py:InitFarmData.calculate"])
p("Sequential dynamic wakes do not depend on the engine or on earlier evaluations",
  "With SeqDynamicWakes, the wake at a point in a state is the same whether or not points were evaluated in earlier states, and for all engines.",
  "all engines, all sets of states with evaluations",
  "All subsets of evaluated states, of time series of any length.",
  ["foxes/models/wake_frames/seq_dynamic_wakes.py:SeqDynamicWakes.get_wake_coos","foxes/engines/pool.py:_run"])
p("Turbine positions set by SetFarmVars",
  "Turbine positions that SetFarmVars sets for some states (NaN meaning not set) are used in these states, and those of the wind farm in the others, for chunks of any sizes and in repeated calculations; the wind farm object itself is not changed by the calculation.",
  "all settings per state, all layouts, numbers of states and chunks",
  "Ranges over all chunkings, NaN patterns and sequences of calculations.",
  ["foxes/models/turbine_models/set_farm_vars.py:SetFarmVars.load_data","foxes/algorithms/downwind/models/init_farm_data.py:InitFarmData.calculate"])
p("Hub heights and rotor diameters set by SetFarmVars",
  "Hub heights and rotor diameters that SetFarmVars sets for some states (NaN meaning not set) are used in these states, and those of the turbine or of its turbine type in the others, for chunks of any sizes.",
  "all settings per state, turbines, turbine types, numbers of states and chunks",
  "Ranges over all chunkings and NaN patterns.",
  ["foxes/models/turbine_models/set_farm_vars.py:SetFarmVars.load_data","foxes/algorithms/downwind/models/init_farm_data.py:InitFarmData.calculate"])
p("SetFarmVars once",
  "With once=True, SetFarmVars sets its variables at the begin of each calculation, in all chunks and states, and then leaves them to other models.",
  "all settings, chunks, sequences of calculations and effects of other models",
  "Ranges over sequences of calculations and calls.",
  ["foxes/models/turbine_models/set_farm_vars.py:SetFarmVars.calculate"])
p("Window of FieldDataNC around the wind farm",
  "FieldDataNC reads all grid points of the files that are not further than bounds_extra_space from the range of the wind farm's turbines, in x and in y, so that every turbine is inside the grid that was read; this holds for the farm of the current calculation.",
  "all layouts, grids and extra spaces, sequences of farms",
  "Ranges over all layouts and grids; tests use layouts in UTM coordinates, with northings far larger than eastings.",
  ["foxes/input/states/field_data_nc.py:FieldDataNC.load_data","foxes/core/wind_farm.py:WindFarm.get_xy_bounds"])
p("Variables of FieldDataNC",
  "FieldDataNC provides all output variables, each read from the files into its own place or, if it is in fixed_vars, with the fixed value, for any order of output variables and any choice of fixed variables.",
  "all lists of output variables and fixed variables",
  "Ranges over all subsets and orders of variables.",
  ["foxes/input/states/field_data_nc.py:FieldDataNC.load_data","foxes/input/states/field_data_nc.py:FieldDataNC._get_data","foxes/input/states/field_data_nc.py:FieldDataNC.calculate"])
p("Load modes of FieldDataNC",
  "The load modes preload, lazy and fly give the same data for each state, for any number and sizes of files, any chunks of states and any selection by isel.",
  "all splits of states into files and chunks, all selections",
  "Ranges over all file sizes and chunk boundaries.",
  ["foxes/input/states/field_data_nc.py:FieldDataNC.calculate","foxes/input/states/field_data_nc.py:_read_nc_file"])
p("Interpolation of NaN values in FieldDataNC",
  "With interp_nans, FieldDataNC keeps all values that are not NaN and replaces the others from values of the same state, so that the result does not depend on the chunks.",
  "all data with NaN values, all chunks",
  "Ranges over all patterns of NaN values and all chunkings.",
  ["foxes/input/states/field_data_nc.py:FieldDataNC.calculate"])
p("Interpolated wind vectors",
  "Wind speed and direction that are interpolated between heights or grid points are those of the weighted mean of the wind vectors: the speed is at most the mean speed, equal to it for equal directions; turning all directions turns the result; the direction is within the sector of the data; weights are non-negative with sum one; only data of the state itself matters.",
  "all data, weights, dimensions and chunks",
  "Ranges over all real data and weights.",
  ["foxes/input/states/multi_height.py:MultiHeightStates.calculate","foxes/input/states/field_data_nc.py:FieldDataNC.calculate","foxes/utils/wind_dir.py:wd2uv","foxes/utils/wind_dir.py:uv2wd"])
p("Heights in MultiHeightStates",
  "MultiHeightStates interpolates linearly between the two neighbouring heights, returns a height's own data at this height, and outside raises an error or, with bounds_error=False, uses the lowest or the highest height's data; for heights given in any order.",
  "all heights, data and target heights",
  "Ranges over all heights and data.",
  ["foxes/input/states/multi_height.py:MultiHeightStates.calculate"])
p("Variables in MultiHeightStates",
  "In MultiHeightStates, variables from fixed_vars or from one column have this value at all heights, others are interpolated between heights (wind speed and direction as vectors), and every output variable is provided.",
  "all sources of variables, all heights",
  "Ranges over all combinations of sources of variables.",
  ["foxes/input/states/multi_height.py:MultiHeightStates.calculate","foxes/input/states/multi_height.py:MultiHeightStates.load_data"])
p("Turbine type FromLookupTable",
  "FromLookupTable sets the power of the selected turbines to the table's power at the wind speed for power (variable var_ws_P, corrected for air density and yaw with p_P) and the thrust coefficient to the table's at the wind speed for thrust (variable var_ws_ct, corrected with p_ct); other turbines are not changed; the nominal power is the largest power of the table if it is not given.",
  "all tables, wind speeds, selections, densities, yaw angles and names of columns",
  "Ranges over all tables and inputs; the thrust coefficient of unit tests with equal wind speeds hides the sharing of arrays.",
  ["foxes/models/turbine_types/lookup.py:FromLookupTable.calculate","foxes/models/turbine_types/lookup.py:FromLookupTable.initialize","foxes/models/turbine_models/lookup_table.py:LookupTable.calculate"])
p("LookupTable",
  "LookupTable accepts a table exactly if it has rows for all combinations of its input values, in any order of rows; at a row's inputs the result is the row's value (the mean for repeated rows), in between it is within the range of values, outside it is an error; this holds for any number of input variables.",
  "all tables and inputs",
  "Ranges over all tables, orders of rows and inputs.",
  ["foxes/models/turbine_models/lookup_table.py:LookupTable.load_data","foxes/models/turbine_models/lookup_table.py:LookupTable.calculate"])
p("Window of WRGStates around the wind farm",
  "WRGStates selects a part of the grid that includes all points of the farm's range plus the extra space, as far as the file has data there.",
  "all grids, layouts and extra spaces",
  "Ranges over all grids and layouts.",
  ["foxes/input/states/wrg_states.py:WRGStates.load_data"])
p("States and weights of WRGStates",
  "WRGStates has one state for each wind speed bin and sector, and the state's weight at a point is the sector's frequency times the Weibull probability of the bin, so that the sum of weights is at most one.",
  "all bins, numbers of sectors, files and points",
  "Ranges over all bins and parameters.",
  ["foxes/input/states/wrg_states.py:WRGStates.load_data","foxes/input/states/wrg_states.py:WRGStates.calculate","foxes/utils/wrg_utils.py:ReaderWRG"])
p("Grid of a horizontal slice",
  "get_mean_data_xy / get_states_data_xy (SliceData, SlicesData, FlowPlots2D) evaluate the flow on a regular grid: with automatic bounds it reaches from xspace before the first to xspace behind the last turbine (same in y), its point distances are close to the resolution; with given bounds it includes both bounds; the points are at the given height, or at half way between the lowest and the highest hub.",
  "all layouts, resolutions, numbers of points, bounds, margins and heights",
  "Ranges over all layouts and real-valued bounds; rounding of the number of points has boundary cases.",
  ["foxes/output/grids.py:get_grid_xy","foxes/output/slice_data.py:SliceData.get_mean_data_xy"])
p("Grid of a vertical slice",
  "A vertical slice in direction x_direction has points in one vertical plane: with coordinates x (or y) and z along orthonormal axes, so that distances in the picture are distances in space; it covers all turbines and passes between them; the argument y is the y coordinate of the plane.",
  "all layouts, directions, resolutions and bounds",
  "Ranges over all directions and layouts.",
  ["foxes/output/grids.py:get_grid_xz","foxes/output/grids.py:get_grid_yz"])
p("Same data in all formats of slices",
  "The formats numpy, pandas and xarray of slice data all have the value calculated at a grid point at the place (index or coordinates) of this grid point, for means and for the data of states.",
  "all grid sizes, orientations, fields and states",
  "Ranges over all grid sizes; square grids hide swapped axes.",
  ["foxes/output/grids.py:np2np_p","foxes/output/grids.py:np2pd_p","foxes/output/grids.py:np2xr_p","foxes/output/grids.py:np2np_sp","foxes/output/grids.py:np2pd_sp","foxes/output/grids.py:np2xr_sp"])
p("Mean over states in slices",
  "get_mean_data_* gives at each point the weighted mean of the (selected) states' values.",
  "all states, weights, selections of states, fields and points",
  "Ranges over all weights and selections.",
  ["foxes/output/slice_data.py:SliceData._calc_mean_data"])
p("Variables of slice data",
  "Without the argument variables, get_mean_data_* and get_states_data_* return all variables of the point results; with it the chosen ones.",
  "all point results, grids and lists of variables",
  "Must hold for every set of results, in particular the default one.",
  ["foxes/output/slice_data.py:SliceData._calc_mean_data","foxes/output/slice_data.py:SliceData._calc_states_data"])
p("Limits, returned data and rotors of flow pictures",
  "Slice values are normalised and then limited by vmin and vmax; FlowPlots2D shows the requested variable, returns its data if ret_data=True, and draws the rotors of the shown state.",
  "all values, limits, variables, orders of sets and selections of states",
  "The order of a Python set differs between runs; ranges over all selections.",
  ["foxes/output/slice_data.py:SliceData._data_mod","foxes/output/flow_plots_2d/flow_plots.py:FlowPlots2D.get_mean_fig_xy","foxes/output/flow_plots_2d/flow_plots.py:FlowPlots2D.gen_states_fig_xy"])
p("Wind rose frequencies",
  "RosePlotOutput.get_data divides all wind directions into wd_sectors sectors around north, and wind speeds into the given bins: every state is counted in exactly one bin, the frequency of a bin is 100 times the sum of the weights of its states, and the frequencies sum up to the weight of all states in the range; the figure stacks the bins with north at the top and east on the right.",
  "all numbers of sectors, bins, states, weights, directions and wind speeds",
  "Ranges over all directions; the boundaries (360, half sectors, bin edges) are real numbers.",
  ["foxes/output/rose_plot.py:RosePlotOutput.get_data","foxes/output/rose_plot.py:RosePlotOutput.get_figure"])
p("Bin values of WindRoseBinPlot",
  "WindRoseBinPlot.get_data gives for each bin of direction and wind speed the weighted mean (or mean, or sum) of the variable over the states in the bin, between their minimum and maximum; bins without states have no value.",
  "all numbers of sectors, bins, states, weights and variables",
  "Ranges over all states and bins.",
  ["foxes/output/rose_plot.py:WindRoseBinPlot.get_data"])
p("Values in csv files of farm results",
  "Every csv file of ResultsWriter.write_csv for all variables or a list of variables has one row per state and turbine, labelled by them, with the values of the farm results, whatever files were written before; with turbine indices it has exactly the requested columns.",
  "all farm results, lists of variables and histories of calls",
  "Ranges over all histories of calls on one writer, which works on its own data in place.",
  ["foxes/output/results_writer.py:ResultsWriter.write_csv","foxes/output/results_writer.py:ResultsWriter._get_data_vars"])
p("Turbine names in csv files",
  "ResultsWriter.write_csv(variables, turbine_names=True) writes the requested variables, labelled by state and turbine name.",
  "all farm results and lists of variables",
  "Must hold for every list of variables.",
  ["foxes/output/results_writer.py:ResultsWriter.write_csv"])
p("Calls of the results writer are independent",
  "A call of ResultsWriter.write_csv has the same result whatever calls were made before.",
  "all farm results, and all sequences of calls",
  "Ranges over all histories of calls.",
  ["foxes/output/results_writer.py:ResultsWriter.write_csv"])
p("State-turbine tables",
  "write_csv with state_turbine_table=True writes one row per state and one column per turbine (by index or by name), in their order, with the values of the variable.",
  "all farm results and variables",
  "Ranges over all numbers of states and turbines.",
  ["foxes/output/results_writer.py:ResultsWriter.write_csv"])
p("Renaming of columns in csv files",
  "write_csv with a dict of variables writes each variable under its new name; index columns can be renamed likewise, and the dict can be used again.",
  "all farm results and dicts",
  "Ranges over all dicts, including repeated use.",
  ["foxes/output/results_writer.py:ResultsWriter._get_data_vars"])
p("netCDF files of farm results",
  "ResultsWriter.write_nc writes for each variable the matrix over states and turbines, with the labels of the states and optionally the turbine names, for every kind of states.",
  "all farm results, labels of states and lists of variables",
  "Ranges over all labels, including repeated ones and ones without zero.",
  ["foxes/output/results_writer.py:ResultsWriter.write_nc"])
p("Files written and read via pandas",
  "Writing and reading a table via PandasFileHelper (all output classes, states and models with files) chooses the format by the ending of the file name among csv, h5 and nc, with the default parameters of this format and the parameters of this call only.",
  "all file names, parameters and histories of calls",
  "Ranges over all file names and histories of calls.",
  ["foxes/utils/pandas_utils.py:PandasFileHelper.write_file","foxes/utils/pandas_utils.py:PandasFileHelper.read_file"])
p("One run of a parameter dictionary",
  "run_dict makes exactly the calls the dictionary and its arguments ask for, in the documented order: create what is not passed in, start the engine, calculate the farm unless calc_farm.run is False, calculate points if asked, run the outputs in their order, shut the engine down; arguments overrule the dictionary; a dictionary that lacks something needed, or contradictory arguments, are never accepted.",
  "all dictionaries, arguments and behaviours of the called components",
  "Ranges over all combinations of sections and arguments.",
  ["foxes/input/yaml/dict.py:run_dict","foxes/input/yaml/dict.py:read_dict"])
p("Running a parameter dictionary again",
  "Calling run_dict a second time with the same dictionary does the same as the first time, and parameters passed to one call do not influence later calls.",
  "all dictionaries and pairs of calls",
  "A property of histories of calls on a shared mutable dictionary.",
  ["foxes/input/yaml/dict.py:run_dict","foxes/utils/dict.py:Dict.pop_item"])
p("run_dict releases its engine",
  "The engine that run_dict creates is shut down when run_dict ends, by return or by exception, such that later calculations can create their own.",
  "all dictionaries, and every point at which a component may raise",
  "Ranges over all crash points.",
  ["foxes/input/yaml/dict.py:run_dict","foxes/core/engine.py:Engine.initialize"])
p("Result labels of output functions",
  "In the outputs of a parameter file, an argument '$label' or '$label[i,j]' is replaced by the object (or its element) stored last under this label by an earlier function, all other arguments are passed as they are, unknown labels are never passed on, and run_outputs returns the labels exactly if asked to.",
  "all lists of outputs and functions, labels, indices, and results of the functions",
  "Ranges over all sequences of functions and stores.",
  ["foxes/input/yaml/dict.py:run_obj_function","foxes/input/yaml/dict.py:run_outputs","foxes/input/yaml/dict.py:_get_object"])
p("Directories of input and output files",
  "Relative input (output) files are resolved against the input (output) directory of the run, by default the working directory, absolute ones are left alone; a run is not influenced by the directories of earlier runs.",
  "all paths, configurations and sequences of runs",
  "The configuration is global: the statement is about all histories of runs.",
  ["foxes/config/config.py:get_path","foxes/input/yaml/dict.py:read_dict","foxes/output/output.py:Output"])
p("States read their file at every initialisation",
  "States given by a file (StatesTable, Timeseries, MultiHeightStates, ...) read the same file whenever they are initialised, hence in each of several calculations.",
  "all file names, input directories, file systems and numbers of calculations",
  "Ranges over all histories of initialisations and all directory settings.",
  ["foxes/input/states/states_table.py:StatesTable.load_data","foxes/input/states/multi_height.py:MultiHeightStates.load_data","foxes/config/config.py:get_input_path"])
p("windIO time series",
  "A windIO wind resource over time becomes states in which each given variable has its given value at every time (a constant at all times); turbulence intensity 0.05 and density 1.225 are used exactly where nothing is given.",
  "all windIO wind resources, variables and times",
  "Ranges over all resources and orders of their entries.",
  ["foxes/input/yaml/windio/read_site.py:_get_Timeseries","foxes/input/yaml/windio/read_fields.py:read_wind_resource_field"])
p("windIO single conditions and wind roses",
  "A windIO wind resource that consists of a single wind condition, or of a wind rose over wind speeds and directions, is converted to states with these conditions; whatever is accepted has a time axis.",
  "all windIO wind resources",
  "Says that no input of a whole class is accepted.",
  ["foxes/input/yaml/windio/read_site.py:_get_SingleStateStates","foxes/input/yaml/windio/read_site.py:get_states"])
p("windIO resources over time and height",
  "Data given over (time, height) or (height, time) has its given value at each time and height; constants and data over time hold at all heights.",
  "all windIO wind resources with heights, variables, times and heights",
  "Ranges over all matrices in both orientations.",
  ["foxes/input/yaml/windio/read_site.py:_get_MultiHeightNCTimeseries"])
p("windIO wind farms",
  "The wind farm has one turbine for each position of each layout, in their order, at that position and of the type that the layout's map of turbine types names; all valid windIO farms are accepted.",
  "all windIO farms, numbers of layouts, turbines and types",
  "Ranges over all farms.",
  ["foxes/input/yaml/windio/read_farm.py:read_farm","foxes/input/yaml/windio/read_farm.py:read_layout","foxes/utils/dict.py:Dict"])
p("windIO wake expansion",
  "The wakes of a windIO model grow with k_a * TI + k_b, with the ambient TI if free_stream_ti is set, missing coefficients being zero; a turbulence model without own coefficients uses those of the wind deficit model.",
  "all coefficients and turbulence intensities",
  "Ranges over all real coefficients, including the zero and null cases that select another constructor call.",
  ["foxes/input/yaml/windio/read_attributes.py:_read_wind_deficit","foxes/input/yaml/windio/read_attributes.py:_read_turbulence","foxes/core/wake_model.py:WakeK"])
p("windIO flow field grids",
  "The grid of a windIO flow field spans the given bounds, is at least as fine as the given spacing, and no coarser grid is.",
  "all bounds and spacings",
  "Ranges over all real bounds and spacings.",
  ["foxes/input/yaml/windio/read_outputs.py:_read_flow_field"])
p("foxes_windio command line options",
  "The options of foxes_windio for rotor, partial wakes, wake models, wake frame, iterations and output directory determine the run.",
  "all options, input files and behaviours of the called components",
  "A statement about pairs of runs with different options.",
  ["foxes/input/yaml/windio/windio.py:foxes_windio","foxes/input/yaml/dict.py:run_dict"])
p("XArrayEngine blocks",
  "The XArrayEngine's blocks cover all states and targets, and its results are those of one single chunk for any chunk size settings, numbers of states and targets, and order in which the blocks are computed.",
  "all chunk size settings, numbers of processes, states, targets, models that treat (state, target) pairs independently, and schedules",
  "Ranges over all sizes and schedules.",
  ["foxes/engines/dask.py:XArrayEngine.run_calculation","foxes/engines/dask.py:DaskBaseEngine.chunk_data"])
p("XArrayEngine gives each data set its own variables",
  "In each block, model data, farm data and point data consist of their own variables and values, restricted to the block.",
  "all data sets, variable names and values",
  "Ranges over all contents of the data sets, including names that occur in several of them.",
  ["foxes/engines/dask.py:_run_as_ufunc","foxes/engines/dask.py:XArrayEngine.run_calculation"])
p("Dask configuration belongs to the engine",
  "The dask configuration while an engine is active is that of dask plus the settings given to its constructor; other engines do not change it.",
  "all sequences of engine constructions, settings and configurations",
  "Ranges over all histories of constructor calls.",
  ["foxes/engines/dask.py:DaskBaseEngine.__init__","foxes/engines/dask.py:LocalClusterEngine.__init__"])
p("Engine.map passes on its inputs",
  "Pool and dask engines call the function of map with exactly the given inputs.",
  "all input lists, functions, numbers of processes and schedules",
  "Ranges over all kinds and mixtures of inputs.",
  ["foxes/engines/pool.py:PoolEngine.map","foxes/engines/dask.py:DaskBaseEngine.map"])
p("Worker pools end with their engines",
  "At any time the running worker pools (or local clusters) are those of the engines that have been entered and not left; leaving an engine ends all pools it has started.",
  "all histories of entering, leaving, initialising and finalising any number of engines",
  "Ranges over all histories, including failing calls.",
  ["foxes/engines/pool.py:PoolEngine.__enter__","foxes/engines/pool.py:PoolEngine.__exit__","foxes/engines/dask.py:LocalClusterEngine.__enter__"])
p("Layouts from tables",
  "add_from_csv / add_from_df add one turbine for each row of the table, in the order of the rows, with name, position, number, height, diameter and models of that row's entries (or the given defaults where no column is asked for).",
  "all tables, row labels and arguments",
  "Ranges over all tables and combinations of arguments.",
  ["foxes/input/farm_layout/from_csv.py:add_from_csv","foxes/input/farm_layout/from_df.py:add_from_df"])
p("Layout csv files can be read back",
  "Reading a csv file written by FarmLayoutOutput.write_csv gives the same wind farm: names, positions, heights and diameters.",
  "all wind farms",
  "Ranges over all wind farms.",
  ["foxes/output/farm_layout.py:write_csv","foxes/input/farm_layout/from_csv.py:add_from_csv"])
p("Layout JSON files can be read back",
  "Reading a JSON file written by FarmLayoutOutput.write_json gives the same wind farm: name, turbine names, numbers, positions, heights and diameters.",
  "all wind farms",
  "Ranges over all wind farms.",
  ["foxes/output/farm_layout.py:write_json","foxes/output/farm_layout.py:get_layout_dict","foxes/input/farm_layout/from_json.py:add_from_json"])
p("Random layouts",
  "add_random adds the wanted number of turbines with at least the minimal distance from each other and the given centre, whatever random numbers are drawn; with a seed the result does not depend on the random numbers drawn before.",
  "all random numbers, seeds, numbers of turbines and distances",
  "Ranges over all sequences of random numbers.",
  ["foxes/input/farm_layout/from_random.py:add_random","foxes/utils/random_xy.py:random_xy_square"])
p("netCDF files",
  "write_nc writes all variables of a data set, rounded to the given or default digits, and leaves the data set as it is.",
  "all data sets, variables, values and rounding instructions",
  "Ranges over all data sets.",
  ["foxes/utils/xarray_utils.py:write_nc","foxes/variables.py:get_default_digits","foxes/output/state_turbine_table.py:get_dataset"])
p("Point calculation output",
  "PointCalculator.calculate returns the algorithm's point results for the given points (or their mean over the states, if wanted), and writes them to the file.",
  "all algorithms, points, selections of states and variables",
  "Ranges over all algorithms and arguments.",
  ["foxes/output/calc_points.py:PointCalculator"])
p("Names of turbine type files",
  "The power, diameter, hub height and type name that the name of a turbine type file states (e.g. NREL-5MW-D126-H90.csv) are those the turbine type gets; every file name can be used.",
  "all file names: bases, parts in any order and number, units, decimals, both separators, directories and extensions",
  "Ranges over all file names.",
  ["foxes/data/parse.py:parse_Pct_file_name","foxes/models/turbine_types/PCt_file.py:PCtFile"])
p("Names of pairs of turbine type files",
  "Power and thrust files are accepted as a pair exactly if they belong to the same turbine type; the result does not depend on their order.",
  "all pairs of file names",
  "Ranges over all pairs of file names.",
  ["foxes/data/parse.py:parse_Pct_two_files","foxes/models/turbine_types/PCt_from_two.py:PCtFromTwo"])
p("Given parameters of turbine types",
  "Parameters passed to a turbine type (diameter, hub height, nominal power, unit) are used, and win over what the file or its name states.",
  "all turbine types from files, file names and parameters",
  "Ranges over all file names and parameters.",
  ["foxes/models/turbine_types/PCt_file.py:PCtFile","foxes/models/turbine_types/PCt_from_two.py:PCtFromTwo","foxes/models/turbine_types/CpCt_file.py:CpCtFile","foxes/models/turbine_types/CpCt_from_two.py:CpCtFromTwo","foxes/models/turbine_types/TBL_file.py:TBLFile"])
p("Turbine types from power coefficients",
  "A turbine type made from cp and ct curves produces the power of the wind through the rotor area times cp, in the wanted unit, zero outside of the table, and the given ct.",
  "all curves, densities, diameters, units and wind speeds",
  "Ranges over all curves and wind speeds.",
  ["foxes/models/turbine_types/CpCt_file.py:CpCtFile","foxes/models/turbine_types/CpCt_from_two.py:CpCtFromTwo"])
p("Nominal power in file names",
  "The nominal power of a turbine type is the one its file name states, in whatever unit powers are given.",
  "all file names and units",
  "Ranges over all file names and units.",
  ["foxes/models/turbine_types/PCt_file.py:PCtFile","foxes/data/parse.py:parse_Pct_file_name"])
p("Names of rotor and partial wakes models",
  "For every number of points written in digits: if it is the square of n, the names grid<n2> and grid<n2>_raw create the grid rotor with n x n points, with and without reduction to the rotor disc, and grid<n2> the grid partial wakes model; level<n>, level<n>_raw and axiwake<n> create the models with n levels or radii; other numbers of grid points are rejected without creating an entry. A created model is stored under its name.",
  "all digit strings, all names of these templates",
  "tests can only try a few names; the claim is about all numbers and about the search order over several templates",
  ["foxes/models/model_book.py:ModelBook.__init__", "foxes/utils/factory.py:FDict.__getitem__", "foxes/utils/factory.py:Factory.check_match"])
p("Names of wake frames with units",
  "timelines_<t> and seq_dyn_wakes_<t> create frames with the time step t in minutes for t in seconds (10s) and minutes (1min), dyn_wakes_<l> one with the maximal wake length l in km for l in m and km, streamlines_<step> one with that step, for all whole and decimal numbers; texts that end with no known unit are rejected without creating an entry.",
  "all decimal numbers, both units, all texts with another last character",
  "tests can only try a few names",
  ["foxes/models/model_book.py:ModelBook.__init__", "foxes/utils/factory.py:FDict.__getitem__"])
p("Names of kTI turbine models",
  "kTI_<a>, kTI_<a>_<b>, kTI_amb_<a> and kTI_amb_<a>_<b> create the kTI model with the factor a, the offset b and the (ambient) turbulence intensity; numbers can be written as in the example names the templates print.",
  "all decimal numbers, four templates",
  "tests can only try a few names; four overlapping templates are searched in an order that depends on their registration",
  ["foxes/models/model_book.py:ModelBook.__init__", "foxes/utils/factory.py:FDict.add_factory", "foxes/utils/factory.py:Factory.__init__"])
p("Results do not depend on the choice of the processing order",
  "The downwind farm results of a state are the same for every processing order of the turbines in which no turbine acts on an earlier one; in particular it does not matter how the sorting by the along-wind coordinate arranges turbines with equal coordinates.",
  "all farms, ambient conditions, lists of downwind wake models with commuting contributions that act strictly downstream, all admissible orders",
  "tests see one sort algorithm and one order per farm; the claim is about all of them",
  ["foxes/models/wake_frames/rotor_wd.py:RotorWD.calc_order", "foxes/algorithms/downwind/models/farm_wakes_calc.py:FarmWakesCalculation.calculate", "foxes/algorithms/downwind/models/reorder_farm_output.py:ReorderFarmOutput.calculate"])
p("Renumbering turbines with equal along-wind coordinates",
  "Re-numbering the turbines of a farm permutes the farm results accordingly and changes nothing else, also when several turbines have the same along-wind coordinate.",
  "all farms, all permutations, all lists of downwind wake models with commuting contributions that act strictly downstream",
  "tests can only try a few farms and permutations",
  ["foxes/models/wake_frames/rotor_wd.py:RotorWD.calc_order", "foxes/algorithms/downwind/models/init_farm_data.py:InitFarmData.calculate"])
p("Farm order wake frame",
  "The wake frame that processes the turbines in the order of the farm gives the results of the default frame for every farm whose turbines are listed from upstream to downstream (ties allowed); for other farms it can miss wakes in a downwind run.",
  "all farms listed in non-decreasing along-wind coordinate, all lists of downwind wake models with commuting contributions that act strictly downstream",
  "tests can only try a few farms",
  ["foxes/models/wake_frames/farm_order.py:FarmOrder.calc_order"])
p("Thrust to thrust coefficient",
  "The turbine model thrust2ct gives every selected turbine and state the thrust coefficient that produces the requested thrust, 1/2 rho A ws^2 ct = T, keeps the others, and inverts the calculation of a thrust from a coefficient.",
  "all arrays and selections, all nonzero densities, diameters and wind speeds",
  "tests can only try a few values",
  ["foxes/models/turbine_models/thrust2ct.py:Thrust2Ct.calculate"])
p("Regularised square root",
  "sqrt_reg(x, x0) equals the root for x >= x0, is positive, strictly increasing and not below the root everywhere, and has a positive derivative everywhere, at x0 that of the root.",
  "all real x and all x0 > 0",
  "smoothness at one point and monotonicity cannot be tested",
  ["foxes/utils/regularize.py:sqrt_reg"])
p("Vertical profiles from data",
  "A profile from data with distinct heights is the piecewise linear curve through the rows, independent of their order; it returns a row's value at its height, and a height below or above all rows is an error.",
  "all tables with distinct heights, all orders of the rows, all heights",
  "tests can only try a few tables and heights",
  ["foxes/models/vertical_profiles/data_profile.py:DataProfile.__init__", "foxes/models/vertical_profiles/data_profile.py:DataProfile.calculate"])
p("Values at the rotor centres",
  "The values at the hubs that the turbine model hubh_data reports from within a downwind farm calculation are those of a point calculation at the hubs with the final farm results.",
  "all farms, ambient conditions, non-empty lists of wake models with arbitrary superpositions that act on downstream hubs only; whether the turbine's other models run before or after",
  "the model is evaluated while the farm data is incomplete; the claim is about all farms and stages",
  ["foxes/models/turbine_models/rotor_centre_calc.py:RotorCentreCalc.calculate", "foxes/algorithms/downwind/models/farm_wakes_calc.py:FarmWakesCalculation.calculate", "foxes/algorithms/downwind/models/point_wakes_calc.py:PointWakesCalculation.calculate"])
p("Turbine models as farm models",
  "A turbine model wrapped as a farm model acts on all turbines and states, however the states are split into chunks.",
  "all arrays, all partitions into chunks",
  "tests run with few states and one chunk",
  ["foxes/models/farm_models/turbine2farm.py:Turbine2FarmModel.calculate"])
p("Random states data",
  "Random ABL states have the requested names and number of states; every number lies in its range; Monin-Obukhov lengths with an absolute value outside of the allowed range, and only those, are NaN; normalised weights are positive, sum to one, and have the ratios that were drawn.",
  "all numbers of states, all columns and ranges, every random generator with values in [0, 1)",
  "the output is random: a test sees one sample",
  ["foxes/input/states/create/random_abl_states.py:create_random_abl_states"])
p("Digits of written random states",
  "Random ABL states written to a file are rounded to the number of digits that was asked for, and otherwise to the defaults; weights are written exactly.",
  "all data, all choices of digits and column names",
  "tests can only try a few digits",
  ["foxes/input/states/create/random_abl_states.py:write_random_abl_states"])
p("Random time series",
  "A random time series has every number in its range and is reproducible from its seed, whatever was drawn before.",
  "all seeds, ranges and lengths, all prior states of the generator",
  "the state of the global generator depends on everything that ran before",
  ["foxes/input/states/create/random_timeseries.py"])
p("Python code in input values",
  "Evaluating python code in nested input values keeps the structure and all values without code, replaces code by the value it computes, and the result depends on the arguments only.",
  "all nested structures, all interpreters, all prior calls",
  "the leak of variables needs a history of calls; structures are unbounded",
  ["foxes/utils/exec_python.py:exec_python"])
p("Data books",
  "After any history of additions, including failing ones, a data book finds under a file name in a context the path that was added last, fails or returns nothing for others as asked, and lists exactly the added names; a book can be copied from another.",
  "all histories of additions, all file systems, all names",
  "the claim is about all histories",
  ["foxes/utils/data_book.py:DataBook"])
p("Moving and turning wind farm and wind",
  "Moving the wind farm and the wind field, and turning both by the same angle, leaves the results of every turbine unchanged; in uniform wind only the wind direction has to be turned.",
  "all wind farms, wind fields with nonzero wind speed at the hubs, angles, translations, lists of wake models, partial wakes points; wind directions up to multiples of 360 degrees",
  "the claim is about all farms, all angles and all wake models",
  ["foxes/models/wake_frames/rotor_wd.py:RotorWD.calc_order", "foxes/models/wake_frames/rotor_wd.py:RotorWD.get_wake_coos", "foxes/core/rotor_model.py:RotorModel.get_rotor_points", "foxes/algorithms/downwind/models/init_farm_data.py:InitFarmData.calculate", "foxes/algorithms/downwind/models/farm_wakes_calc.py:FarmWakesCalculation.calculate"])
p("Mirror images of wind farms",
  "The mirror image of a wind farm in the mirror image of the wind field has the same turbine results, for wake models that depend on downwind and radial distance, evaluated at rotor centres or on the rotors' vertical axes.",
  "all wind farms, wind fields with nonzero wind speed at the hubs, lists of wake models",
  "the claim is about all farms and all wake models",
  ["foxes/models/wake_models/axisymmetric.py:AxisymmetricWakeModel.calc_wakes_x_yz", "foxes/models/wake_frames/rotor_wd.py:RotorWD.get_wake_coos", "foxes/algorithms/downwind/models/farm_wakes_calc.py:FarmWakesCalculation.calculate"])
p("Algorithms that share a model book: turbine types","A farm calculation gives each turbine the rotor diameter and hub height of its own turbine type (unless the turbine states its own), no matter which other algorithms have been created with the same model book in the meantime.","all model books, farms, and all histories of creating and running algorithms with one model book","the outcome depends on the order in which algorithms are created and run; tests run one algorithm at a time",["foxes/algorithms/downwind/downwind.py:187-189","foxes/core/farm_controller.py:FarmController.find_turbine_types","foxes/core/farm_controller.py:FarmController.collect_models","foxes/algorithms/downwind/models/init_farm_data.py:InitFarmData.calculate"])
p("Algorithms that share a model book: rotor variables","The rotor variables of a calculation are those which its own states and turbine types ask for: REWS, the weights, the variables of the states except WS, and REWS2 and REWS3 if a turbine type needs them; earlier calculations with the same model book do not matter.","all histories of creating and running algorithms with one model book, all states' variables and turbine types","the rotor model object keeps the variables of its first use; only histories of several different algorithms show it",["foxes/core/rotor_model.py:RotorModel.output_farm_vars","foxes/core/rotor_model.py:RotorModel.eval_rpoint_results","foxes/algorithms/downwind/downwind.py:119-120"])
p("Parameters of farm calculations","The parameters given to calc_farm for a model are passed to that model and to no other, and they do not change which turbine models run before and after the rotor model.","all calc_parameters dictionaries, model names and options of calc_farm","depends on which dictionary objects are shared by entries of the model list; must hold for every choice of names and parameters",["foxes/algorithms/downwind/downwind.py:Downwind._collect_farm_models","foxes/core/farm_controller.py:FarmController.calculate"])
p("Symmetric wind farms","In uniform wind, a wind farm and its reflection in a vertical plane along the wind direction have the same results; in particular, if a wind farm is its own reflection, each turbine has the same results as its mirror turbine. For downwind wake models that depend on downwind and radial distance and have no effect upstream, evaluated on the rotors' vertical axes.","all wind farms, wind directions, reflection planes, lists of wake models, also with turbines at equal along-wind coordinates","the claim is about all symmetric farms, all wind directions and any ties in the order",["foxes/models/wake_frames/rotor_wd.py:RotorWD.calc_order","foxes/models/wake_frames/rotor_wd.py:RotorWD.get_wake_coos","foxes/core/rotor_model.py:RotorModel.get_rotor_points","foxes/algorithms/downwind/models/farm_wakes_calc.py:FarmWakesCalculation.calculate"])
p("Areas from shape files","The area that is made from the polygons of a shape file contains exactly the points that lie in one of the chosen polygons (inside of its outer ring and outside of its own holes), with all coordinates in one UTM zone, which is reported.","all files, choices of names, zones, and all points","must hold for every arrangement of polygons, holes and parts",["foxes/utils/geopandas_utils.py:shp2geom2d","foxes/utils/geopandas_utils.py:read_shp_polygons","foxes/utils/geopandas_utils.py:_extract_poly_coords"])
p("Names in shape files","A name that is not in the shape file is a KeyError; without a choice of names all polygons of the file are used.","all files with polygons and all lists of names","must hold for all tables of names, also with equal and missing names",["foxes/utils/geopandas_utils.py:read_shp_polygons","foxes/utils/geopandas_utils.py:shp2geom2d"])
p("foxes_yaml command line options","The algorithm options of foxes_yaml (rotor, partial wakes, wakes, frame, iterative) overrule the file's, all other parameters, calculations and outputs are those of the file; engine options overrule the engine settings of the file they name, and those only.","all input files with the required sections, all combinations of options","options combine with every file content; only a proof covers all combinations",["foxes/input/yaml/yaml.py:foxes_yaml","foxes/input/yaml/dict.py:read_dict","foxes/input/yaml/dict.py:run_dict"])
p("Wake effects at the points of a rotor","The wake effect at each point of a downstream rotor is that at the point's own coordinates in the wake of the source turbine.","all source positions, wind directions, rotor centres, yaw angles, diameters, lists of rotor points and wake effect functions","the claim ranges over all geometries; tests mostly have rotors that face the same wind",["foxes/models/wake_models/dist_sliced.py:contribute","foxes/models/wake_models/axisymmetric.py","foxes/core/rotor_model.py:get_rotor_points"])
p("Variables and superpositions of wake models","Each variable of a wake model is combined by the superposition chosen for it and all others stay as they are; a variable without superposition is an error that changes nothing; finally each variable is finalized once with its own ambient value.","all superpositions, variables and deltas","dictionaries of any size and content; tests cover WS and TI only",["foxes/models/wake_models/dist_sliced.py:contribute","foxes/models/wake_models/dist_sliced.py:finalize_wake_deltas"])
p("Under-relaxation of the iterative algorithm","set_urelax under-relaxes the given variables at the given entry point of each iteration; without it the models are those of the Downwind algorithm.","all combinations of entry points and variables, all data and models","combinations of entry points and all behaviours of the other models; no finite set of runs settles that it works for none",["foxes/algorithms/iterative/iterative.py:set_urelax","foxes/algorithms/iterative/iterative.py:_collect_farm_models","foxes/models/urelax.py:URelax","foxes/models/farm_wakes_calc.py"])
p("Turbines without thrust","Turbines that contribute to no wake (e.g. thrust coefficient zero) do not change the results of other turbines or points: these are the results of the farm without them.","all farms, sets of such turbines, wake models, superpositions, numbers of iterations","all farms and all subsets of turbines; a test compares one pair of farms",["foxes/algorithms/downwind/models/farm_wakes_calc.py","foxes/algorithms/iterative/models/farm_wakes_calc.py","foxes/algorithms/downwind/models/point_wakes_calc.py","foxes/models/wake_models/top_hat.py:212","foxes/models/wake_models/wind/bastankhah14.py:146"])
p("Results do not depend on the length scale","If all positions, hub heights, rotor diameters and the wind field are enlarged by the same factor, all results are unchanged, for wake models whose only length is the rotor diameter.","all factors, farms, wind fields, lists of wake models, parameters","a scaling law over all farms and factors; tests check a few layouts",["foxes/models/wake_frames/rotor_wd.py","foxes/core/rotor_model.py","foxes/models/wake_models/wind/jensen.py","foxes/models/wake_models/wind/bastankhah14.py","foxes/models/wake_models/wind/turbopark.py","foxes/models/wake_models/ti/iec_ti.py","foxes/models/wake_models/ti/crespo_hernandez.py","foxes/models/wake_models/induction"])
p("Directions modulo 360 in float arithmetic",
  "Wherever the package reduces a direction modulo 360 (yaw from yaw misalignment, wind direction from a wind vector, sector management, wind roses) the float result lies in [0, 360) and differs from the exact remainder only by rounding; the same for other periods.",
  "all float directions, all positive float periods",
  "The exceptional inputs are a set of tiny negative numbers that random or hand-written tests do not hit; the bound holds for all floats.",
  ["foxes/models/turbine_models/yawm2yaw.py:YAWM2YAW.calculate","foxes/models/turbine_models/sector_management.py:SectorManagement","foxes/utils/wind_dir.py:uv2wd","foxes/output/rose_plot.py:RosePlotOutput.get_figure"])
p("Numbers of wind direction sectors in float arithmetic",
  "A wind rose with n sectors, a .tab file with n sectors and a wind resource grid with n sectors have n sector centres at the multiples of 360/n degrees and n + 1 sector bounds, so that they can be created for every n.",
  "all numbers of sectors up to 2^40",
  "The number of entries of np.arange depends on the rounding of two divisions; tests use 8, 12, 16 or 36 sectors, where the divisions are exact.",
  ["foxes/output/rose_plot.py:RosePlotOutput.get_data","foxes/utils/tab_files.py:read_tab_file","foxes/input/states/wrg_states.py:WRGStates.load_data"])
p("The integration grid along a centreline in float arithmetic",
  "The integral along a wake centreline (calc_centreline_integral, used by TurbOParkWakeIX) is evaluated on the nodes 0, dx, 2 dx, ... up to the first node not below the largest target distance, for every step size and every target distance.",
  "all step sizes and target distances that are floats",
  "Whether np.arange returns one node too many depends on the rounding of n * dx / dx, i.e. on the step and on the positions of turbines and evaluation points.",
  ["foxes/core/wake_frame.py:WakeFrame.calc_centreline_integral","foxes/models/wake_models/wind/turbopark.py:TurbOParkWakeIX"])
p("Wind speed limits in float arithmetic",
  "With lower and upper limits of a wind speed superposition the computed (float) waked wind speed respects the limits, stays positive for a positive lower limit whatever the strength of wakes, and is bitwise the ambient wind speed where there are no wakes.",
  "all float ambient values, wake deltas and limits",
  "The limit is applied to the difference and the ambient value is added afterwards; whether the sum falls below the limit depends on rounding.",
  ["foxes/models/wake_superpositions/ws_linear.py:WSLinear.calc_final_wake_delta","foxes/models/wake_superpositions/ws_quadratic.py:WSQuadratic.calc_final_wake_delta","foxes/algorithms/downwind/models/point_wakes_calc.py:PointWakesCalculation.calculate"])
p("Animations show all pictures of all generators",
  "Picture i of an animation consists of the artists of the i-th yields of all generators in order; generators that have ended contribute nothing, the animation is as long as the longest generator; a foreign figure is an error; an Animator can be used again.",
  "all numbers of generators and sequences of yields",
  "Generators of any number and length, with any pattern of empty pictures.",
  ["foxes/output/animation.py:Animator.animate"])
p("Pictures of a sequential run",
  "SeqFlowAnimationPlugin gives one picture per state of the sequential run, in order, in the chosen orientation and with the title computed for its state.",
  "all sequences of states, orientations and title functions",
  "Ranges over all runs; the title is stored in one place shared by all states.",
  ["foxes/output/seq_plugins/seq_flow_ani_plugin.py:SeqFlowAnimationPlugin.update","foxes/output/seq_plugins/seq_flow_ani_plugin.py:SeqFlowAnimationPlugin.gen_images"])
p("Stacks of slices",
  "SlicesData returns for a list of positions the data of all slices in one data set: the value at position k and grid node (j, i) is that at the corresponding point, coordinates are normalised as requested, names are mapped as requested, and a file contains all slices.",
  "all lists of positions, grids, normalisations, label maps and fields",
  "Ranges over all combinations of positions, normalisations and label maps.",
  ["foxes/output/slices_data.py:SlicesData","foxes/output/slice_data.py:SliceData","foxes/output/grids.py:np2xr_p","foxes/output/grids.py:np2xr_sp"])
p("Rotors, arrows and pixels in flow pictures",
  "In flow pictures each rotor is drawn as a line of length D at the turbine's place, orthogonal to its axis; wind arrows are the wind vector in the picture plane; the value shown at (x_i, y_j) is the one calculated there; the created figure is returned.",
  "all turbines, picture kinds, directions, labels, winds and grids",
  "Ranges over all directions and kinds of pictures; a test looks at a few images.",
  ["foxes/output/flow_plots_2d/get_fig.py:get_fig","foxes/output/flow_plots_2d/flow_plots.py:FlowPlots2D"])
p("Pictures of power and thrust curves",
  "plot_curves draws for each requested variable, on the axis given or a new one, the turbine type's values over wind speeds from ws_min to ws_max in steps of ws_step, and returns the axes; with a power mask also the masked curve, and the model book is left as it was.",
  "all ranges of wind speeds, steps, lists of variables and axes, curves and model books",
  "Ranges over all ranges and steps, and lists of axes; tests look at one default call.",
  ["foxes/output/turbine_type_curves.py:TurbineTypeCurves.plot_curves"])
p("Heat maps of states and turbines",
  "StateTurbineMap.plot_map shows the value of state s and turbine t in the cell of this state and turbine, the cells of states adjoin, and labels stand at the cells they name.",
  "all lists of states, numbers of turbines, values and ticks",
  "Ranges over all numbers of states and turbines, and tick distances chosen by the plotting library.",
  ["foxes/output/state_turbine_map.py:StateTurbineMap.plot_map"])
p("Labels of rotor point weights",
  "The colour bar of rotor point pictures has a tick for each different weight, labelled by its value or by nothing; the extreme weights are labelled, labels have a distance of more than five percent of the bar.",
  "all lists of different weights",
  "Ranges over all rotor models and weights.",
  ["foxes/output/rotor_point_plots.py:RotorPointPlot.get_point_figure"])
p("Wind farms that do not reach each other",
  "If the wakes of one group of turbines do not reach another group, the second group has the results of a calculation without the first; two farms that do not reach each other can be calculated jointly or separately, with the Downwind and the iterative algorithm.",
  "all farms and groups of turbines at different along-wind coordinates in wind of one direction, all wake models and numbers of iterations; all superpositions but the product",
  "Ranges over all farms and groups, with arbitrary wakes inside of each group.",
  ["foxes/algorithms/downwind/models/farm_wakes_calc.py:FarmWakesCalculation","foxes/algorithms/iterative/models/farm_wakes_calc.py:FarmWakesCalculation","foxes/models/wake_frames/rotor_wd.py:RotorWD","foxes/models/wake_models/top_hat.py:TopHatWakeModel"])
p("The order of superposed wakes in float arithmetic",
  "In another order of the turbines the superposed wake effect of n wakes changes by at most 4 n 2^-53 times the sum of the absolute wake effects (8 (n+1) 2^-53 times the exact one after the square root of the quadratic superposition), and limits of the wind speed do not enlarge the difference; maxima and the sums of up to two wakes agree bit by bit. Three wakes may disagree in the last bit.",
  "all lists of floats as wake model results, all orders, all superpositions by sums and maxima; no overflow, numbers of wakes up to 2^50",
  "Ranges over all floats and all permutations; tests compare a few cases with a tolerance that nothing justifies.",
  ["foxes/models/wake_superpositions/ws_linear.py:WSLinear","foxes/models/wake_superpositions/ws_quadratic.py:WSQuadratic","foxes/models/wake_superpositions/ws_max.py:WSMax","foxes/models/wake_superpositions/ws_pow.py:WSPow","foxes/models/wake_superpositions/ti_linear.py:TILinear"])
p("All wind speeds multiplied by a factor",
  "If all ambient wind speeds and the limits of the superposition are multiplied by a factor and the thrust curves are stretched accordingly, all wind speeds of the farm and at points are multiplied by this factor (wake efficiencies are unchanged), with the Downwind and the iterative algorithm. Limits that stay the same break the proportion.",
  "all farms, factors, relative deficits, wind speed superpositions (linear, quadratic, maximum, power, their local versions, and the product at each place) and numbers of iterations",
  "Ranges over all factors, farms and wake models; a test compares two runs of one farm.",
  ["foxes/models/wake_superpositions/ws_linear.py:WSLinear","foxes/models/wake_superpositions/ws_quadratic.py:WSQuadratic","foxes/models/wake_superpositions/ws_pow.py:WSPow","foxes/algorithms/downwind/models/farm_wakes_calc.py:FarmWakesCalculation","foxes/algorithms/downwind/models/point_wakes_calc.py:PointWakesCalculation"])
p("Accuracy of converged iterative results",
"If one sweep of the iterative algorithm reduces every difference between two sets of wind speeds by a factor q < 1, then the coupled wake equations have exactly one solution, the loop always ends by acceptance (with an explicit number of iterations), the accepted sweep is within q*tol/(1-q) and the returned farm results are within tol/(1-q) of the solution at every turbine; the sweep has this property whenever, for each turbine, the sensitivities of the wakes of all other turbines acting on it sum up to at most q, for every wind speed superposition other than the product, with any limits. The convergence limit itself is not an accuracy: without the factor, accepted results can be arbitrarily many limits away from the solution, or no solution may exist.",
"all farms, wake models with Lipschitz contributions, superpositions, limits, tolerances, iteration limits and blocking patterns",
"A test sees the change between two sweeps, not the distance to the exact solution, which is not computable; the bound must hold for every farm and tolerance.",
["foxes/algorithms/iterative/iterative.py: Iterative.calc_farm","foxes/algorithms/iterative/models/convergence.py: ConvVarDelta.check_converged","foxes/algorithms/iterative/models/farm_wakes_calc.py: FarmWakesCalculation.calculate","foxes/models/wake_superpositions/"])
p("Small changes of the wind speeds",
"If the ambient wind speeds change by at most delta, and the wind speed losses in the wakes by at most eta plus L times the change of the wind speed at the wake causing turbine (e.g. a slightly different thrust curve), the wind speeds of the Downwind algorithm change by at most what the turbines in front pass on, and hence by at most (delta + (n-1) eta) (1+L)^(n-1), for linear, quadratic, maximum and power superpositions with any limits; solutions of coupled farms change by at most D/(1-q). Where the sensitivity is unbounded (a jump of the thrust curve) arbitrarily small changes have finite effects.",
"all farms, turbine orders, pairs of ambient wind speeds, pairs of wake models, limits and superpositions that scale with the rotor's wind speed",
"Ranges over all pairs of inputs; a test compares two calculations.",
["foxes/algorithms/downwind/models/farm_wakes_calc.py: FarmWakesCalculation.calculate","foxes/models/wake_superpositions/ws_linear.py: WSLinear","foxes/models/wake_superpositions/ws_quadratic.py: WSQuadratic","foxes/models/wake_superpositions/ws_max.py: WSMax","foxes/models/wake_superpositions/ws_pow.py: WSPow"])
p("Classes selected by name",
"The run-time selection of classes by name (Engine.new, States.new, WakeModel.new, Output.new and the other new functions) finds exactly the classes derived from the base over any number of levels: a name given once selects that class independent of the iteration order of python's set and of classes defined later under other names, an unknown name is a KeyError, no name gives nothing, and every short engine name selects the same engine as its class name. If two derived classes share a name the selection is arbitrary.",
"all class hierarchies (including several bases), names, and iteration orders of the set of subclasses",
"The order of a python set varies from run to run, and users add classes of their own.",
["foxes/utils/subclasses.py: all_subclasses, new_cls, new_instance","foxes/core/engine.py: Engine.new","foxes/engines/__init__.py"])
p("Pictures of areas",
"AreaGeometry.add_to_figure paints every node of its grid with the value that belongs to that node's own coordinates (distance, or inside flag, according to the fill mode), uses the numbers of nodes asked for (Nx and Ny, N, or 500), and without corners given by the caller its window shows the whole area (within the axis limits where the area is unbounded), or for areas without any finite corner everything outside of them. Arguments should be kept and every area should be drawable; instead the dictionary is emptied, given corner arrays are widened in place, half planes and areas with integer corners cannot be drawn.",
"all areas (half planes, circles, polygons, unions, inverses), windows, axis limits, node numbers and fill modes",
"Pictures are not compared in unit tests, and mixing up rows and columns shows only for non-square grids and non-symmetric areas.",
["foxes/utils/geom2d/area_geometry.py: AreaGeometry.add_to_figure, AreaUnion.p_min, InvertedAreaUnion.p_min","foxes/utils/geom2d/half_plane.py: HalfPlane.p_min"])
p("Complete farm calculations","For one state of uniform wind, any number of turbines of any types at any positions, the Jensen or the Bastankhah2014 wake model, any of the wind speed superpositions with limits, and sorted power and thrust curves, a complete downwind farm calculation returns the one and only set of results in which every turbine has the wind speed that the superposed wakes of all turbines leave over, and the thrust and power that belong to that wind speed. No turbine has more wind than the state, turbines that stand behind no other one (for Jensen also those beside all wakes) have exactly the wind of the state, and with power curves that do not fall no turbine and no wind farm produces more than without wakes.","all farms, turbine types, wind directions, wind speeds, models and limits","The statement is about the fixed point that all models together reach, for every layout and every wind direction; a test compares one layout with stored numbers.",["foxes/algorithms/downwind/downwind.py: calc_farm","foxes/models/wake_models/wind/jensen.py","foxes/models/wake_models/wind/bastankhah14.py","foxes/models/wake_superpositions","foxes/models/turbine_types/PCt_file.py","foxes/models/wake_frames/rotor_wd.py"])
p("Energy yields of complete runs","For any list of states of uniform wind with weights, any number of processes and chunk sizes and any order in which the chunks are completed, a complete run followed by the yield evaluation returns for each turbine the weighted sum over the states of the power that belongs to the balanced wake situation of the state, times the hours of a year. The yields do not depend on the engine, its settings, or the order of the states; with power curves that do not fall and weights that are not negative no turbine and no wind farm yields more than without wakes.","all farms, turbine types, lists of states, models, engine settings and completion orders","The statement connects chunking, scheduling, the wake calculation and the evaluation; a test fixes one layout, one list of states and one engine.",["foxes/core/engine.py: calc_chunk_sizes, combine_results","foxes/engines/pool.py: run_calculation","foxes/algorithms/downwind/downwind.py: calc_farm","foxes/algorithms/downwind/models/set_amb_farm_results.py: SetAmbFarmResults","foxes/output/farm_results_eval.py: calc_turbine_yield, calc_farm_yield"])
p("Wind and turbulence wakes together","A farm calculation with a wind deficit model whose wakes grow with the turbulence intensity, k = ka TI + kb, and a model for the turbulence in wakes returns results that fit together: every turbine has the wind speed and the turbulence intensity that follow from the superposed wakes of all turbines, all wakes grow with the turbulence intensity at the turbine that causes them, and thrust and power belong to the wind speed. No turbine has more wind and none less turbulence than the state.","all farms, turbine types, wind directions, wind speeds, turbulence intensities, superpositions, turbulence models, orders of the two wake models, and numbers of sweeps of the iterative algorithm","The two wake models read what the other one writes; whether the results fit together depends on the layout, the list of models and the algorithm, and one layout with stored numbers does not show it.",["foxes/algorithms/downwind/models/farm_wakes_calc.py: FarmWakesCalculation","foxes/algorithms/iterative/models/farm_wakes_calc.py: FarmWakesCalculation","foxes/core/wake_model.py: WakeK","foxes/models/wake_models/ti","foxes/models/wake_superpositions"])
p("Flow fields of complete runs are the superposed wakes, whatever the engine and the other points",
"Running calc_farm and then calc_points, with uniform wind states, the frame rotor_wd, centre rotor, Jensen or Bastankhah2014 wakes and any wind speed superposition: the wind speed reported at a point of a state is the ambient wind speed plus the combination of the wakes that all turbines (with the balanced farm results of that state) have at that point, cut at the limits. It is never above the ambient wind speed and never below the lower limit; points behind no turbine, and with Jensen wakes points beside all wakes, report exactly the ambient wind speed; at the hub of a turbine the reported value is the effective wind speed of that turbine in the farm results. The value does not depend on the engine, its number of processes and chunk sizes, the order in which the chunks are completed, nor on which other states and points are calculated.",
"all wind farms, states, point arrays (also state dependent), superpositions, limits, numbers of processes, chunk sizes in states and points, and completion orders",
"a test evaluates a few points of a few layouts with one engine; the agreement must hold for every field of points, every chunking and schedule",
["foxes/algorithms/downwind/downwind.py: Downwind.calc_points","foxes/algorithms/downwind/models/point_wakes_calc.py: PointWakesCalculation.calculate","foxes/algorithms/downwind/models/set_amb_point_results.py: SetAmbPointResults.calculate","foxes/core/engine.py: Engine.calc_chunk_sizes, combine_results","foxes/engines/pool.py: PoolEngine.run_calculation"])
p("Further turbines take wind from the others, never give any",
"If turbines are added to a wind farm, at any places, then in every state the turbines that are there already and all points of the flow field have at most the wind speed they had before, and (with power curves that do not fall) the turbines produce at most what they produced before. True for complete calculations with Jensen wakes, any superposition that refers the deficits to the ambient wind speed (scale_amb or local), and thrust curves that do not fall with less wind (for Gaussian wakes: constant thrust). False with the default scaling by the waked wind speed of the wake causing turbine: a turbine added in front of B weakens B, and C in the wake of B gets more than twice the wind speed.",
"all wind farms, added turbines, wind directions and speeds, wind speed superpositions, limits, points",
"the comparison is over all pairs of layouts; single examples do not show it",
["foxes/algorithms/downwind/models/farm_wakes_calc.py: FarmWakesCalculation.calculate","foxes/models/wake_superpositions/ws_linear.py: WSLinear.add_wake","foxes/models/wake_models/wind/jensen.py: JensenWake","foxes/models/turbine_types/PCt_file.py: PCtFile.calculate"])
p("Far behind a wind farm the wind has recovered",
"For every wind farm with growing wakes (k > 0), every wind state, Jensen or Bastankhah2014 wakes, every wind speed superposition and all limits: for each tolerance there is a distance such that calc_points reports, at all points further than that behind all turbines, a wind speed within the tolerance of the ambient one and never above it. Without wake growth this fails (a Jensen wake with k = 0 keeps its deficit at all distances).",
"all wind farms, states, superpositions, limits, tolerances and points",
"a statement about all points beyond some distance, for all layouts",
["foxes/algorithms/downwind/models/point_wakes_calc.py: PointWakesCalculation.calculate","foxes/models/wake_models/wind/jensen.py: JensenWake","foxes/models/wake_models/wind/bastankhah14.py: Bastankhah2014","foxes/models/wake_superpositions: WSLinear, WSQuadratic, WSMax, WSPow and local versions"])
p("The default engine only chooses how to calculate, never what",
"Without a chosen engine, calc_farm and calc_points use a process pool if and only if n_states^2 n_turbines^3 >= n_procs 500^3 or n_states n_points > 10000, else a single chunk. The choice is monotone: what is calculated with a pool is also calculated with a pool if states, turbines or points are added. For either choice, all chunk sizes and all orders of completion, the results are those of the unchunked calculation. A wind farm without turbines raises ZeroDivisionError.",
"all numbers of processes, turbines, states and points, chunk sizes and completion orders, and all models that treat states (and points) independently",
"the switch depends on sizes that tests never reach on both sides",
["foxes/engines/default.py: DefaultEngine.run_calculation","foxes/engines/single.py: SingleChunkEngine.run_calculation","foxes/engines/pool.py: PoolEngine.run_calculation"])
p("Rotor averages over any set of rotor points are in balance with the wakes",
"For uniform wind, any rotor points with positive weights of sum one, partial wakes at the rotor points, Jensen or Bastankhah2014 wakes, any wind speed superposition with a non-negative lower limit and any number of turbines at any positions: calc_farm returns the one and only set of results in which every rotor point has the wind speed that the superposed wakes of all turbines leave over there, REWS, REWS2 and REWS3 are the means of its first, second and third power, CT belongs to REWS2 and P to REWS3. Then lower limit <= REWS <= REWS2 <= REWS3 <= undisturbed wind speed; turbines whose rotor points are behind no other turbine or beside all Jensen wakes have the undisturbed wind; no turbine produces more than alone; the rotor averages are the averages of what calc_points returns at the rotor points; the one point rule gives the results of the centre rotor.",
"all numbers, positions, types of turbines, rotor rules, wind directions and speeds, superpositions with their limits",
"a statement about all farms and rotor rules; the downwind loop of the code is related to a system of coupled equations",
["foxes/models/partial_wakes/rotor_points.py: RotorPoints","foxes/core/rotor_model.py: RotorModel.eval_rpoint_results","foxes/algorithms/downwind/models/farm_wakes_calc.py: FarmWakesCalculation.calculate","foxes/models/turbine_types/PCt_file.py: PCtFile.calculate"])
p("Wakes mirrored at the ground are in balance with the farm",
"For uniform wind, the centre rotor and centre partial wakes, Jensen or Bastankhah2014 wakes, any superposition and any list of mirror planes (ground models WakeMirror, GroundMirror): calc_farm returns the one and only set of results in which every turbine has the wind speed that the superposed wakes of all turbines and of their images leave over, with matching thrust and power. No wind speed exceeds that of the state, no turbine produces more than alone; calc_points agrees with the turbines at the hubs and returns the undisturbed wind out of reach of all turbines and images; with one plane the wind is the same at every point and at its mirror image (with two planes in general not); without planes, or with planes whose images reach no hub, the results are those of the other planes alone; if the deficits refer to the ambient wind speed and the thrust does not fall with less wind, further planes give wind to no turbine and no point.",
"all numbers, positions, heights, types of turbines, lists of planes, wind directions and speeds, superpositions with their limits, points",
"a statement about all farms and all planes; the downwind loop with temporarily changed hub heights is related to a system of coupled equations",
["foxes/models/ground_models/wake_mirror.py: WakeMirror, GroundMirror","foxes/algorithms/downwind/models/farm_wakes_calc.py: FarmWakesCalculation.calculate","foxes/algorithms/downwind/models/point_wakes_calc.py: PointWakesCalculation.calculate"])
p("Layout files are read by the reader of their ending",
"add_from_file reads existing files named *.json by the json reader and files named *.csv, *.csv.gz, *.csv.bz2, *.csv.zip by the csv reader, and refuses all other names with a KeyError, whether the name is a text or a pathlib.Path, and likewise for files that are found in the data book; the verbosity is passed on. (True for texts that name existing files; compressed files given as pathlib.Path or found in the data book end in a TypeError, and the json reader is called without the verbosity.)",
"all file names, directories, data books, both kinds of arguments",
"a statement about all file names",
["foxes/input/farm_layout/from_file.py: add_from_file"])
p("Misaligned turbines",
  "A farm calculation with yaw misalignments set by the user returns for every turbine the wind speed that the wakes of all turbines leave over, times the cosine of its misalignment, and the thrust and power at that wind speed times cos^(p_ct/2) and cos^(p_P/3); turbines of the same type with the same misalignment in the same wind produce the same power, and results depend neither on the numbering nor on turbines whose wakes do not reach. (False for one turbine, the first in the order of the calculation: it has the full wind speed instead of the one along its rotor axis, since the yaw angle is set after the rotor model has run and the first turbine is not evaluated again.)",
  "every farm, every misalignment below 90 degrees, all exponents, curves, wind directions and superpositions of the single state calculation with the rotor_wd frame",
  "The examples compare plots of one or two turbines; the dependence of the correction on the position in the processing order shows only by comparing turbines in the same wind over all farms.",
  ["foxes/models/turbine_models/yawm2yaw.py:59-65", "foxes/models/turbine_types/PCt_file.py:305-347", "foxes/models/rotor_models/centre.py:172-189", "foxes/algorithms/downwind/models/farm_wakes_calc.py:107-142", "foxes/algorithms/downwind/models/init_farm_data.py:114-137"])
p("Numbers in written tables",
  "A table written to file keeps the order and names of its columns; a column whose variable has a format (the user's one, else the default one of foxes) shows every number rounded to the digits of the format, half to even, with its sign, keeps missing entries, and all other columns are unchanged. The error is at most half a unit of the last digit, numbers with that many digits are exact, the order of the numbers is kept, and reading the file and writing it again gives the same texts. A text in a column with a format is an error. (False for a column that holds a variable without a format but is itself called like one of the default variables: it is rounded as that one.)",
  "all tables, columns, numbers, missing entries, maps from columns to variables and formats with a fixed number of digits",
  "Ranges over all numbers and digits, including ties, carries and signs of zero.",
  ["foxes/output/output.py:66-95", "foxes/utils/pandas_utils.py:49-77", "foxes/utils/pandas_utils.py:114-149", "foxes/output/results_writer.py:94-136"])
p("Turbulence model listed before the wind deficit model",
  "If a turbulence wake model is listed before the wind deficit model, the downwind algorithm returns results in which all wakes grow with the turbulence intensity at the turbine that causes them, with wind speeds, thrust, power and turbulence that fit together, and the same results as the iterative algorithm. No turbine has more wind and none less turbulence than the state. (False unless the thrust does not depend on the wind speed: the turbulence pass runs first, so the added turbulence is the one of turbines in the wind of the state; it is not corrected when the wind deficits are known.)",
  "all farms, turbine types, wind directions, wind speeds, turbulence intensities, superpositions and turbulence models",
  "What a pass reads and what later passes change depends on the order of the list; one layout with stored numbers does not show whether the results fit together.",
  ["foxes/algorithms/downwind/models/farm_wakes_calc.py:107-174", "foxes/core/wake_model.py:314-326", "foxes/models/wake_models/top_hat.py:203-227"])
p("Turbulence from point data by ready-made models",
  "With the point model 'ustar2ti' after the states, the turbulence intensity at all points is the friction velocity over von Karman's constant and the wind speed, and all other variables stay as the states give them; without a friction velocity the calculation raises an error. With 'tke2ti' it is the one of turbulence with the given kinetic energy; with a model for uniform data the given values. (False for the last two: 'tke2ti' asks for a variable name that the package does not define, so that no calculation with it returns, its formula is one and a half times the turbulence intensity of isotropic turbulence, and a model for uniform data cannot be initialised.)",
  "all lists of point models, nested or not, all values of the variables at the points",
  "A model that nobody lists in a test can be broken at its first line; and where the values come from depends on the other models in the list.",
  ["foxes/models/point_models/tke2ti.py:36-60", "foxes/models/point_models/ustar2ti.py:54-84", "foxes/models/point_models/set_uniform_data.py:28-130", "foxes/core/point_data_model.py:185-249", "foxes/models/model_book.py:80-90"])
p("Outputs requested by a windIO file",
  "For every windIO output request the turbine file has the requested results of all turbines in exactly the requested states, rounded to the documented digits, and the flow file the requested variables in the same states at all requested heights (the hub heights, once each and ascending, for hub_heights), on a grid within the requested bounds and not coarser than requested. (False: an empty subset of states gives all states in the turbine file; of several heights only the last one is in the flow file; other result names than power, rotor_effective_velocity, wind_speed and wind_direction, and a request without cases_run, raise KeyError.)",
  "all requests: selections of states, names of variables, kinds of vertical sampling, bounds and steps, all farms and results",
  "The request is a nested optional structure with many combinations; tests run one example file and look at the files by eye.",
  ["foxes/input/yaml/windio/read_outputs.py:9-207", "foxes/output/state_turbine_table.py:37-93", "foxes/output/slices_data.py:187-231", "foxes/utils/xarray_utils.py:33-60"])
p("Blockage models alone with the downwind algorithm",
  "With an upstream-acting (blockage) wake model as the only wake model, Downwind.calc_farm returns the one set of results in which every turbine has the wind speed left over by the blockage of all other turbines, and the thrust and power at that wind speed, whatever the numbering of the turbines. (False for turbines side by side, of which only one feels the other, and for pre_rotor_only=False, where the speed-up behind and beside the rotors never reaches a turbine. True of the region in front, if no two turbines stand at the same distance along the wind.)",
  "all farms, positions, wind directions and speeds, thrust and power curves, superpositions, limits and parameters",
  "The result depends on the processing order and the positions of all turbines; tests compare the models with stored numbers for one layout and use the iterative algorithm.",
  ["foxes/algorithms/downwind/models/farm_wakes_calc.py:144-174", "foxes/models/wake_models/induction/self_similar.py:122-252", "foxes/core/wake_model.py:140-164"])
p("Wakes and blockage together with the iterative algorithm",
"With a wind deficit model and a blockage model the iterative algorithm starts with ambient results; in every iteration each turbine has the ambient wind speed plus the superposed wakes plus the superposed blockage of all other turbines (also side by side and behind the rotors), computed from the results before it, and the thrust and power for that wind speed; results stop changing exactly when they fit together; the order of the two models is without effect; renumbering the turbines renumbers the results; equal turbines side by side have equal results; with thrust coefficients that do not change with the wind speed the results settle in the first iteration; the downwind algorithm refuses the two models together; wind speeds stay above the lower limits given to the superpositions. (The last is false: the limits act on wakes and blockage one at a time.)",
"all farms of any number of turbines of any types at any positions, all wind directions and speeds, Jensen or Bastankhah2014 wakes, three blockage models with both settings of pre_rotor_only, all wind speed superpositions and limits for each of the two models, all numbers of iterations, all renumberings",
"A test runs one farm for one number of iterations; that all iterations apply the same balance of wakes and blockage for every farm, superposition and limit, and that limits hold for the sum of both effects, is a statement about all of them.",
["foxes/algorithms/iterative/iterative.py:270-345","foxes/algorithms/iterative/models/farm_wakes_calc.py:90-163","foxes/models/wake_models/induction/self_similar.py","foxes/models/wake_superpositions/ws_linear.py:150-182"])
p("The turbine model Calculator is applied to the turbine's own values",
"The turbine model Calculator gives every turbine the user function of the turbine's own values, once: if the function only changes the elements that st_sel selects, or the output variable differs from the input variable, or a second application of the function changes nothing, then for any number of turbines and wake models the output of each turbine is the function of the value that the models before the Calculator assign to it at last; with the iterative algorithm this holds for all functions.",
"all functions on arrays (selective ones and those without regard to st_sel), all numbers of turbines and downwind wake models, all values assigned by the models before, downwind and iterative algorithm, any number of iterations",
"A test calls the model on one array; how often the function acts on the value of a turbine depends on the number of turbines evaluated after it and on what the function does with the turbines that are not selected, for every farm and function.",
["foxes/models/turbine_models/calculator.py","foxes/algorithms/downwind/models/farm_wakes_calc.py:72-174","foxes/algorithms/downwind/downwind.py:422-470","foxes/core/farm_data_model.py:270-293"])
#APPEND
open('/verif/properties.jsonl','w').write("\n".join(json.dumps(x) for x in P)+"\n")
print(len(P))
