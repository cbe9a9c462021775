{
 "C01": {
  "note": "Float division: C01_float_division shows that int(a / b) in binary64 is the integer quotient of the model for a + b < 2^53."
 },
 "C02": {
  "status": "proved",
  "note": "Proved as stated; the stronger reading (never exceeds the requested size) is refuted by C02_chunk_size_exceeded_refuted."
 },
 "C06": {
  "note": "REFUTED for the point dimension (targets are only reported when the state chunk size is also unset); what does hold is C06_loop_dims_states and C06_loop_dims_targets_partial."
 },
 "C08": {
  "status": "proved",
  "note": "Proved for distinct model names (the code generates them); C08_name_clash_refuted shows the hypothesis is needed."
 },
 "C09": {
  "note": "REFUTED: there is no try/finally, so after any raising calculation every later call fails."
 },
 "C63": {
  "note": "REFUTED: a rejected __enter__ marks the engine as entered before raising."
 },
 "C64": {
  "note": "REFUTED by a two-parent witness."
 },
 "C65": {
  "note": "REFUTED on the empty store (IndexError); holds for every non-empty store."
 },
 "C67": {
  "note": "REFUTED for iterative runs: each worker ends by replacing the shared algorithm's chunk store; proved for one-shot runs under every interleaving."
 },
 "C15": {
  "note": "REFUTED: the reported order/order_inv arrays are themselves reordered; they are mutually inverse in the identity order only (exact characterisation in the _partial theorem)."
 },
 "C16": {
  "note": "REFUTED: set values are stored in the wrong order; the _partial theorems say exactly whose value each turbine gets."
 },
 "C17": {
  "note": "REFUTED: per-turbine rules act on the turbine at the processing position, not on the named one."
 },
 "C21": {
  "status": "partial",
  "note": "Proved for wake model lists in which no earlier listed model reads what a later one changes; refuted without that hypothesis (C21_feedback_refuted)."
 },
 "C68": {
  "note": "REFUTED: the final run re-orders self.__prev_farm_results, i.e. the results of the last but one iteration; exact characterisation proved."
 },
 "C69": {
  "note": "REFUTED: the ambient / single-iteration path never runs ReorderFarmOutput; proved for every such run (C69_ambient_never_reordered)."
 },
 "C70": {
  "note": "REFUTED when an earlier listed model reads what a later one changes (e.g. wake growth from TI); proved for independent models."
 },
 "C71": {
  "note": "REFUTED with a three turbine farm."
 },
 "C20": {
  "note": "REFUTED: selections are indexed by the position within the pre-/post-rotor group, not within the turbine's list; exact rule proved."
 },
 "C73": {
  "note": "REFUTED: the check restarts for each listed model name (prer = None, line 247); exact check characterised."
 },
 "C74": {
  "note": "REFUTED for repeated names (lookup by name finds the first entry); proved for repetition-free lists."
 },
 "C27": {
  "note": "REFUTED: zero-initialised deltas are read as factor 0 when add_wake was never called, and the reset test fires again on fully blocked arrays; exact product formula proved otherwise."
 },
 "C75": {
  "note": "REFUTED for quadratic, power and maximum superpositions (they count a speed-up as a deficit of the same size); proved for linear."
 },
 "C76": {
  "note": "REFUTED by witness: depends on whether any other element of the chunk is waked."
 },
 "C28": {
  "note": "Exact range of validity proved: within +-540 degrees difference; outside it the single wrap fails (also proved)."
 },
 "C77": {
  "note": "REFUTED: the weight uses the rotor of the wake causing turbine; equals the target fraction for equal diameters (proved)."
 },
 "C78": {
  "note": "REFUTED: rows with D>0 or Q=R=0 give NaN, mixed batches raise IndexError; exact characterisation and the D<=0 case proved."
 },
 "C79": {
  "note": "REFUTED for boosts beyond the Betz limit (thrust -inf); proved below it. Model covers the selected turbines' thrust (power_mask.py:190-206) as a function of cp/e."
 },
 "C80": {
  "note": "REFUTED for the centre rotor beyond 90 degrees misalignment (negative REWS); agreement and non-negativity proved within 90 degrees."
 },
 "C38": {
  "note": "Also proves centred first moments (linear shear) and that nint>=3 is necessary for LevelRotor (nint=2 leaves no points)."
 },
 "C83": {
  "note": "REFUTED for the unstable profile (negative at the roughness length); proved for the others via C39 and above the zero crossing."
 },
 "C40": {
  "note": "Set algebra for all nested expressions at points off half-plane boundary lines; at a boundary line a half plane and its inverse both contain the point (C40_half_plane_boundary).",
  "status": "proved"
 },
 "C41": {
  "note": "REFUTED: a bounded intersection of diagonal half planes reports the box (+inf,-inf); proved for all geometries none of whose parts reports an inverted infinite corner."
 },
 "C42": {
  "note": "Distances proved for half planes, circles and polygons. REFUTED for the circle's nearest points when the centre is among the query points (ValueError)."
 },
 "C84": {
  "note": "Safe radius and outside exactness proved; REFUTED inside overlapping unions (only a lower bound). Polygon containment is a hypothesis (traces) since matplotlib's Path is not modelled."
 },
 "C43": {
  "note": "Bounds, constants, farm power contraction orders, NaN states proved. REFUTED: calc_farm_mean and reduce_all(mean_no_weights) return sums over turbines."
 },
 "C44": {
  "note": "Annual yield and time-series energy proved. REFUTED: calc_farm_yield(ambient=True) raises KeyError."
 },
 "C46": {
  "note": "One element of the arrays; np.interp with zero values outside the table. Values stay within the table's range, nodes are hit exactly, zero outside, monotone up to the last node if the table is.",
  "status": "proved"
 },
 "C47": {
  "note": "REFUTED when power and thrust read the same wind speed variable and st_sel is a basic index: rews2/rews3 are then views of the farm data, so the in-place corrections are applied to both and persist. Exact values of both cases are proved; holds for different variables."
 },
 "C48": {
  "note": "REFUTED for two or more turbines of one type: initialize calls modify_cutin once per turbine on the same object, each call smooths the curve again. One call behaves as intended (partial)."
 },
 "C85": {
  "note": "REFUTED for units other than W: the largest table entry, already in P_unit, is divided by the unit factor, so the capacity at rated power equals the unit factor (1000 for kW). Holds for W."
 },
 "C49": {
  "note": "Templates are parsed as in Factory.__init__; the values of a rendered name are recovered exactly and converted by the options.",
  "status": "proved"
 },
 "C50": {
  "note": "REFUTED for templates that end with text (or have no variable): trailing text is ignored, e.g. grid16_rawhide is grid16_raw. Exact characterisation of accepted names; for templates ending with a variable exactly the instances are accepted."
 },
 "C51": {
  "note": "Lookups are stable over all histories and never replace entries. REFUTED: membership does not imply lookup (kTI_abc raises KeyError, kTI_02_ raises IndexError). Base class constructors are abstract."
 },
 "C86": {
  "note": "Resolution order over the six registered templates proved for every base name, superposition name without '_k'/'_ambka' and digit strings. REFUTED for decimal points: Jensen_linear_k0.04 silently creates a model without k; yawed_k0.04 likewise. python float parsing is modelled on plain digits with at most one dot."
 },
 "C52": {
  "note": "Scan (mixed radix bijection between rows and combinations), single, table and wind-rose weights over the reals; the wind rose needs non-negative frequencies and positive sector sums.",
  "status": "proved"
 },
 "C53": {
  "note": "For every order of the variable set; missing columns are rejected at the latest by the data set's size check (xarray, modelled).",
  "status": "proved"
 },
 "C87": {
  "note": "REFUTED: load_data skips the missing column but keeps the variable in the coordinates, so that the data set always fails with ValueError."
 },
 "C88": {
  "note": "REFUTED for profiles given as dict: initialize pops the key 'type' from the user's dict; the second initialisation raises KeyError. Holds for names and objects."
 },
 "C54": {
  "note": "REFUTED for rings: neighbours of add_ring are nearer than dist (dist is the arc length), and an integer offset (the default 0) truncates angle steps to whole degrees, so that >360 turbines coincide. Numbering, names, rows and grids proved.",
  "status": "partial"
 },
 "C55": {
  "note": "REFUTED: turbines created from the same list object (one layout call, or the default argument) share their model lists. Proved over all histories if every turbine has its own list.",
  "status": "partial"
 },
 "C56": {
  "note": "REFUTED in two corners: the automatic entry txyh does not register the size of its last dimension, and a rejected addition raises but stays stored. Proved for all other dimensions over all accepted histories."
 },
 "C90": {
  "note": "REFUTED: a coordinate generated while the dimension has size one is not updated when it grows."
 },
 "C91": {
  "note": "REFUTED: adding X, Y or H later leaves txyh stale (the code only creates it if missing). Creation proved correct."
 },
 "C93": {
  "note": "REFUTED for two extra axes: each squeeze starts from the original array. One axis proved."
 },
 "C57": {
  "note": "REFUTED for turbine dependent model or target data: the full array is returned instead of the slice (model.py lines 420, 447). Proved for farm data and for data without turbine dimension."
 },
 "C58": {
  "note": "REFUTED: np.maximum makes the limit a lower limit."
 },
 "C62": {
  "note": "REFUTED under dynamic wakes with a farm variable of the same name (see C94). Rejection rule and value proved otherwise."
 },
 "C94": {
  "note": "REFUTED: the stage that inserts data of other states overwrites whatever was found, also the model's own parameter."
 },
 "C96": {
  "note": "REFUTED for top-hat partial wakes: the direct wake bypasses the partial wakes model. Equal for plain point evaluation."
 },
 "C97": {
  "note": "REFUTED for farm models: default parameters=[] makes nested chains raise. Proved for point models."
 },
 "C99": {
  "note": "REFUTED with normalisation (always KeyError)."
 },
 "C100": {
  "note": "exact: weights inside are ring area / disc area by C32's slice integral; outside each of the n areas is increased by 1e-15 m^2 as in the code"
 },
 "C101": {
  "note": "REFUTED at lateral distance D/2 exactly; proved for all other positions (constant wake)"
 },
 "C102": {
  "note": "REFUTED for unequal diameters; proved for equal ones"
 },
 "C104": {
  "note": "deflection: proved continuous. deficit: REFUTED for yawed turbines, proved without yaw"
 },
 "C105": {
  "note": "proved for one target point, REFUTED for several"
 },
 "C106": {
  "note": "REFUTED; exact location -2 x deflection proved"
 },
 "C107": {
  "note": "REFUTED; proved when all models of the type have equal parameters"
 },
 "C109": {
  "note": "Bounds, continuity and decay proved for the computed near wake length. REFUTED for user-given near_wake_D: every value other than the computed one gives a jump (C109_given_length_refuted). numpy's ** is Rpower, i.e. ti > 0 and ct2a ct > 0."
 },
 "C111": {
  "note": "Value, exactness, error and independence of other targets proved for targets up to the maximal wake length. REFUTED beyond it: interpn's fill value 0 is returned, so TurbOParkWakeIX's width shrinks. Float rounding of the grid, NaN targets, and ipars are not modelled."
 },
 "C114": {
  "note": "REFUTED: on the axis the code's blockage is a*mu(x)*min(1,|x/R|) (C114_on_axis): zero at the rotor. Growth proved upstream of one radius; bounds hold off the rotor edge (x = 0, r = R, where the code divides 0 by 0)."
 },
 "C115": {
  "note": "Proved for all positions, ws >= 1e-15 m/s, D >= 1 m and induction models with a >= 0.24 ct (e.g. Betz, Madsen).",
  "status": "proved"
 },
 "C112": {
  "note": "np.round(x, 12) is modelled exactly over the reals (ties to even)."
 },
 "C113": {
  "note": "Axis growth is stated for SelfSimilar; for the 2020 version the thrust factor varies with distance and no growth claim is made."
 },
 "C116": {
  "note": "One wake causing turbine, ambient data free of NaN."
 },
 "C117": {
  "note": "Completeness up to max_length_km and max_age; beyond it see C119."
 },
 "C118": {
  "note": "REFUTED for the default number of iterations: settling needs about 2C iterations for C chunks (both bounds proved), the default limit is n_turbines^2 + 3 and knows nothing about chunks; the loop then ends silently."
 },
 "C119": {
  "note": "REFUTED beyond max_length_km: inside a chunk wakes are continued until all rows are long, across chunk borders only if shorter than the maximum."
 },
 "C120": {
  "note": "REFUTED for the default maximal age with hourly data: max_age = 1, for which the direction of every wake point is zero and no target is in any wake. Proved for max_age >= 2."
 },
 "C121": {
  "note": "Proved for one wake model, and for several wake models with linear superposition. REFUTED for several models with limited superpositions: the point calculation finalises all models' deltas on the ambient value once, the farm calculation one model after the other. REFUTED for product superposition (points get the product of both factors, the exact formula is C121_product_values)."
 },
 "C122": {
  "note": "Mean effect proved; enumeration independence proved when the counts of rotor points and partial wake points differ, REFUTED when they agree (ambient of the i-th rotor point is paired with the i-th partial wake point)."
 },
 "C123": {
  "note": "REFUTED: AttributeError without farm results (see theorem); with farm results the checks pass."
 },
 "C126": {
  "note": "REFUTED: index tuples are passed when all turbines use the model or when wakes are evaluated; the models apply & or np.sum to them. Whole-farm evaluations with boolean selections work (C126_factors_partial)."
 },
 "C127": {
  "note": "Exact values proved for boolean selections. REFUTED: thrust is looked up at the power wind speed; with density correction the calculation fails if turbines are inside and outside of the range."
 },
 "C128": {
  "note": "Proved for all sectors except the full circle, for which it is REFUTED (0 to 360 matches nothing)."
 },
 "C129": {
  "note": "Formula proved; REFUTED for ti_val, which is ignored."
 },
 "C130": {
  "note": "Real arithmetic, one state and point; the wind profile models and the height dependence are not modelled.",
  "status": "proved"
 },
 "C131": {
  "note": "REFUTED in part: C131_transport_partial proves transport for constant wind and equal time steps; far downstream the last state's data are used, in the first step first and last state are mixed (index -1), exactly whole steps upstream the result is one state late, irregular time steps use the wrong step.",
  "status": "partial"
 },
 "C132": {
  "note": "Proved for all histories. NaN-free data, one hub height level.",
  "status": "proved"
 },
 "C133": {
  "note": "Proved; the turbine's hub height is one of the timeline heights.",
  "status": "proved"
 },
 "C134": {
  "note": "REFUTED: the point is mirrored at the nearest whole step (sign error), the trace starts at the chunk-local state index, and it uses the displacement of the present state while coordinates use those of earlier states; distance zero in the last state is an IndexError. C134_centreline_point is the exact characterisation in steady wind, C134_whole_steps the correct case.",
  "status": "partial"
 },
 "C135": {
  "note": "Proved in real arithmetic for one state; heights are plain differences and not modelled.",
  "status": "proved"
 },
 "C136": {
  "note": "REFUTED: the order is calculated while AMB_WD is NaN; streamlines are NaN and kept in the model data, so all wake coordinates are NaN: farm order and no wakes (C136_no_wakes_refuted, for every farm). C136_fresh_model_data shows what recalculation would give.",
  "status": "partial"
 },
 "C137": {
  "note": "REFUTED in general: NaN coordinates of upstream turbines in the last turbine's frame sort last. C137_order_partial: correct if no turbine is a step or more upstream of the last turbine of the farm and all are within the streamline length.",
  "status": "partial"
 },
 "C138": {
  "note": "The loop part is proved for all histories; REFUTED: next after the end is a TypeError, and duplicate labels (e.g. clock change) make all states fail.",
  "status": "partial"
 },
 "C139": {
  "note": "Proved for models without memory; REFUTED for SeqDynamicWakes, whose traces survive: exact range of the second loop's first state.",
  "status": "partial"
 },
 "C140": {
  "note": "Proved if nothing is looked up by state index; REFUTED otherwise: every sequential state looks up index 0, e.g. moving turbines do not move.",
  "status": "partial"
 },
 "C142": {
  "note": "Proved for an unchanged place in the order; REFUTED: traces are stored by downwind position, so after a change of the order they belong to another turbine.",
  "status": "partial"
 },
 "C143": {
  "note": "Proved if all states are evaluated in the main process; REFUTED for one-turbine farms and for process engines: the wake ends after one time step.",
  "status": "partial"
 },
 "C141": {
  "note": "Paths, nearest point and steady wind for all time series.",
  "status": "proved"
 },
 "C144": {
  "note": "The values are proved for all chunks; REFUTED: the farm object is changed, and a later calculation without the model uses these positions or fails.",
  "status": "partial"
 },
 "C145": {
  "note": "REFUTED: unset states get NaN if the value is the turbine type's; shape error with two or more chunks of states. Proved for turbines with own values and one chunk.",
  "status": "partial"
 },
 "C146": {
  "note": "First calculation proved; REFUTED for calculations after the first without new initialization, and for the Sequential algorithm.",
  "status": "partial"
 },
 "C147": {
  "note": "Proved for y. REFUTED for x: the upper bound is the largest y value (line 390), characterised exactly; turbines further east are outside, the grid may be empty. REFUTED: the window of the first farm is kept; descending coordinates select nothing.",
  "status": "partial"
 },
 "C148": {
  "note": "Proved for any output variables with WS and WD from files. REFUTED for a fixed WD (always IndexError) and a fixed WS (always KeyError).",
  "status": "partial"
 },
 "C149": {
  "note": "Proved for all files and chunks without selection of states. REFUTED with isel of states: load mode fly ignores it.",
  "status": "partial"
 },
 "C150": {
  "note": "Numbers are kept, no NaN left, and the result is independent of the chunk if a state's first and last values are numbers. REFUTED otherwise: interpolation runs across states.",
  "status": "partial"
 },
 "C151": {
  "note": "Proved for all weights and data; own-state property proved without NaN. REFUTED with NaN values in a neighbouring state of the chunk (zero weight times NaN).",
  "status": "partial"
 },
 "C152": {
  "note": "Proved for ascending heights. REFUTED for descending order: always an error, or wrong data with bounds_error=False.",
  "status": "partial"
 },
 "C153": {
  "note": "Proved for other variables and for profiles. REFUTED: a fixed or height-independent wind speed is reduced if the wind direction depends on height (exact formula); the weight as an output variable is an error.",
  "status": "partial"
 },
 "C154": {
  "note": "Power proved. REFUTED for the thrust coefficient: both lookups write into the same array, so that it is always taken at the wind speed for power; with other names of the power column the nominal power is a KeyError.",
  "status": "partial"
 },
 "C155": {
  "note": "Proved for tables with any number n >= 2 of input variables (C155_n_*; the earlier two-input theorems are kept). C155_n_affine: affine outputs are reproduced exactly. REFUTED for one input variable: loading always fails (pandas index without levshape). Axes with one value only are outside of C155_n_nodes/within.",
  "status": "partial"
 },
 "C156": {
  "note": "Exact selection proved for farms inside the data; all turbines are covered if the extra space is at least the resolution. REFUTED otherwise: the last grid line before the upper bound is the end; an extra space beyond the lower data bound by one cell selects nothing.",
  "status": "partial"
 },
 "C157": {
  "note": "States and non-negativity proved. REFUTED: frequencies of files in units of 0.1 percent are read as percent, weights are 100 times too large; bin weights are density times width at the centre, not the probability.",
  "status": "partial"
 },
 "C158": {
  "note": "REFUTED for given ranges shorter than half the resolution (one point at the lower bound only, C158_short_refuted); proved otherwise. Selection of states enters as the list of positions.",
  "status": "partial"
 },
 "C159": {
  "note": "REFUTED for the meaning of argument y (C159_y_refuted: for x_direction=90 the plane has y coordinate minus y); geometry, coverage and isometry proved.",
  "status": "partial"
 },
 "C160": {
  "note": "REFUTED for states' data with format pandas (always ValueError, C160_pandas_refuted; pandas' requirement of 1D columns is in the model); proved for all other formats.",
  "status": "partial"
 },
 "C161": {
  "note": "REFUTED for a selection of states (weights are not normalised: C161_selection, C161_selection_refuted) and for wind directions (C161_direction_refuted); proved for all states with weights of sum one.",
  "status": "partial"
 },
 "C162": {
  "note": "REFUTED: the default variables=None always fails for weights without point dimension (C162_default_refuted, C162_states_refuted); proved for chosen variables.",
  "status": "partial"
 },
 "C163": {
  "note": "REFUTED: ret_data=True returns the first element of a set's data (C163_ret_data_refuted), rotors of other states are drawn with states_sel/states_isel (C163_rotors_refuted); limits and pictures proved.",
  "status": "partial"
 },
 "C164": {
  "note": "REFUTED for directions given as negative angles below half a sector (not counted at all, C164_negative_refuted); proved for directions from 0 to 360. numpy.histogram2d's binning rule is in the model.",
  "status": "partial"
 },
 "C165": {
  "note": "Also for weights of sum below 1e-13 there is no value (C165_empty), as in the code. in_bin is characterised by C164_frequency.",
  "status": "proved"
 },
 "C166": {
  "note": "Proved for the model of ResultsWriter on farm results (cells opaque; formatting of numbers into text not modelled).",
  "status": "proved"
 },
 "C167": {
  "note": "REFUTED for lists of variables: C167_names_refuted shows that every list without the name column fails (KeyError in set_index); C167_names_partial gives the exact condition; C167_all: all variables work.",
  "status": "partial"
 },
 "C168": {
  "note": "REFUTED: writing everything works on the writer's data in place. After turbine_names=True lists by index fail (C168_names_refuted); after a refused table no list can be written and 'all' has an extra column (C168_table_refuted). C168_unchanged_partial, C168_all: the calls that leave the writer as it is.",
  "status": "partial"
 },
 "C169": {
  "note": "Proved for turbine indices (C169_table); REFUTED for turbine names (C169_names_refuted: never written).",
  "status": "partial"
 },
 "C170": {
  "note": "Proved for the columns (C170_rename); REFUTED for index names (C170_state_refuted: never written) and for repeated use of the dict (C170_dict_refuted).",
  "status": "partial"
 },
 "C171": {
  "note": "Proved for different labels (C171_nc_partial); REFUTED for repeated labels (C171_duplicates_refuted); turbine names only if there is a state with label 0 (C171_names_partial).",
  "status": "partial"
 },
 "C172": {
  "note": "REFUTED: parameters of earlier calls stay (C172_leak_refuted; exactly: C172_history_partial); names with two dots are refused, netCDF never works and h5 needs a key (C172_formats_refuted), since the loop over the formats always ends in its first round. C172_csv, C172_read: what holds.",
  "status": "partial"
 },
 "C174": {
  "note": "REFUTED: run_dict pops the layouts, the run flags and the points from the caller's dictionary and writes overrides into it. C174_layouts_refuted: the second call raises KeyError if the dictionary describes its farm; C174_flag_refuted: calc_farm.run=False is respected by the first call only; C174_points_refuted: with calc_points the second call always fails; C174_override_refuted: algorithm parameters of the first call persist. C174_repeat_partial: the cases in which the second call does repeat the first."
 },
 "C175": {
  "note": "REFUTED for exceptions: C175_raise characterises exactly when the engine stays registered, C175_blocked shows that no later run with an engine can then succeed; proved for all returning runs (C175_return_partial)."
 },
 "C176": {
  "note": "Arguments and stores proved for all histories (C176_arguments_partial, C176_stored_partial, C176_unknown). REFUTED parts: empty string arguments raise IndexError, plt_close stores None, the labels are returned in any case (precedence of the conditional expression)."
 },
 "C177": {
  "note": "Resolution proved (C177_resolve); exact history dependence of the directories in C177_history; REFUTED independence of earlier runs (C177_sticky_refuted)."
 },
 "C178": {
  "note": "REFUTED for relative file names with a relative input directory other than '.', as used by foxes_yaml: load_data overwrites the data source by the resolved path, so that each initialisation prepends the input directory again (C178_doubled). C178_reload_partial: all other cases."
 },
 "C179": {
  "note": "REFUTED for a constant turbulence_intensity: fix.update(fixval) (read_site.py:102) overwrites it by 0.05 (C179_ti_refuted). Proved for variables over time and all other constants, and the defaults.",
  "status": "partial"
 },
 "C180": {
  "note": "REFUTED: _get_SingleStateStates (read_site.py:50-52) loops over the names of the coordinates, so that no single condition is ever accepted; wind roses are not supported either. Proved: exactly what is accepted must have.",
  "status": "partial"
 },
 "C181": {
  "note": "REFUTED for data over time only (silently dropped, TI falls back to 0.05) and for a constant TI; proved for both orientations of (time, height) data and for all other constants.",
  "status": "partial"
 },
 "C182": {
  "note": "REFUTED for integer keys of turbine_types, the form of the windIO examples (foxes Dict takes string keys only: TypeError), and for lists x, y of different length (surplus is dropped by zip). Proved for all farms that are read, and completeness for string keys.",
  "status": "partial"
 },
 "C183": {
  "note": "Growth through the constructor and call of WakeK (WakeK_Model).",
  "status": "proved"
 },
 "C184": {
  "note": "Ideal real arithmetic; bounds in the wrong order give two points (C184_reversed).",
  "status": "proved"
 },
 "C185": {
  "note": "REFUTED: run_dict ignores these options since the algorithm is passed; -o raises AttributeError (args.odir).",
  "status": "partial"
 },
 "C187": {
  "note": "REFUTED where a name occurs in several data sets with different values: variables are found by name in the list of all data sets' variables (dask.py:216-217), so the first data set's value is used (C187_shared_names_refuted). True if shared names mean the same (C187_own_data_partial).",
  "status": "partial"
 },
 "C188": {
  "note": "REFUTED: the default dask_config={} is one object shared by all engines, and cluster engines write into it (dask.py:59, 812-813), so after a LocalClusterEngine() every dask engine with default arguments runs with the distributed scheduler. C188_config_partial is exact for all histories.",
  "status": "partial"
 },
 "C189": {
  "note": "REFUTED: np.array_split converts the inputs (pool.py:124, dask.py:136): ints among floats become floats, numbers among strings become strings, tuples become arrays, ragged tuples raise. True for inputs of one kind (C189_map_partial).",
  "status": "partial"
 },
 "C190": {
  "note": "REFUTED where calls fail: __enter__ starts the pool before the checks (pool.py:83-85), so a rejected engine has a running pool, and entering twice loses the first pool, which no later call shuts down. True as long as no call raises.",
  "status": "partial"
 },
 "C191": {
  "note": "REFUTED in parts: labels that occur twice (concatenated tables) are an error, turbine_ids is read at row labels instead of row numbers (from_csv.py:94), and empty cells of height and diameter columns give NaN instead of the type's value. Otherwise proved for all tables with distinct labels.",
  "status": "partial"
 },
 "C192": {
  "note": "REFUTED where turbines take height or diameter from their type: these come back as NaN (farm_layout.py:98, 372-373); the turbines' numbers are replaced by row numbers. Otherwise names (as far as pandas keeps them, parameter text), positions and heights up to 5e-5, and diameters come back.",
  "status": "partial"
 },
 "C193": {
  "note": "REFUTED for heights and diameters, which are not written (farm_layout.py:119-124), and for turbines of the same name, which are merged. Names, numbers and positions are kept exactly if names are distinct.",
  "status": "partial"
 },
 "C194": {
  "note": "REFUTED for seed 0, which is ignored (random_xy.py:41: 'if seed:'). Number, distances and centre proved for all random numbers whenever the loop ends.",
  "status": "partial"
 },
 "C195": {
  "note": "REFUTED: the rounding is done in place on the caller's data set (xarray_utils.py:39, 45), so tables that are also written to a file have rounded values; and a dimension coordinate with digits is an error. The contents of the file are proved.",
  "status": "partial"
 },
 "C196": {
  "note": "REFUTED: states_mean never works (arrays without dimension names, calc_points.py:105-110), to_file without write_vars fails for weights per state, and states selections fail with points of shape (n_points, 3) (91-94). Otherwise proved.",
  "status": "partial"
 },
 "C197": {
  "note": "REFUTED: names without a dash or underscore raise UnboundLocalError, parts that are words beginning with D or H raise ValueError. Round trip proved for all names of a base and at least one part.",
  "status": "partial"
 },
 "C198": {
  "note": "REFUTED: files of different turbines are accepted as soon as their names begin with the same letter and the stated values agree. Exact characterisation of the result, completeness and symmetry proved.",
  "status": "partial"
 },
 "C199": {
  "note": "REFUTED: parameters are ignored with two files, and rejected for tbl files; a file together with a data frame always fails. Proved for PCtFile and CpCtFile.",
  "status": "partial"
 },
 "C200": {
  "note": "REFUTED: CpCtFile can never be used (its table has no thrust column); tables of less than 0.1 mm/s give no curve. Error bound proved for CpCtFromTwo.",
  "status": "partial"
 },
 "C201": {
  "note": "REFUTED: with P_unit other than kW the number in kW is taken for that unit. Proved without P_unit.",
  "status": "partial"
 },
 "C202": {
  "note": "",
  "status": "proved"
 },
 "C203": {
  "note": "",
  "status": "proved"
 },
 "C204": {
  "note": "Proved for numbers with a leading zero for '0.' (02 is 0.2) and numbers of at least one. REFUTED for decimal numbers below one, as in the printed example kTI_0.2: KeyError, although the name is contained in the book.",
  "status": "partial"
 },
 "C205": {
  "note": "states independent of each other; wake models read the farm data of the causing turbine only; exact arithmetic (contributions commute up to rounding in the code); no upwind models",
  "status": "proved"
 },
 "C206": {
  "note": "states independent of each other; wake models read the farm data of the causing turbine only; exact arithmetic (contributions commute up to rounding in the code); no upwind models",
  "status": "proved"
 },
 "C207": {
  "note": "states independent of each other; wake models read the farm data of the causing turbine only; exact arithmetic (contributions commute up to rounding in the code); no upwind models",
  "status": "proved"
 },
 "C208": {
  "note": "exact arithmetic; division by zero not modelled",
  "status": "proved"
 },
 "C209": {
  "note": "exact arithmetic",
  "status": "proved"
 },
 "C210": {
  "note": "scipy's interp1d with default parameters is in the model; equal heights not covered",
  "status": "proved"
 },
 "C211": {
  "note": "one state, one variable, centre partial wakes, no upwind models; a variable that the states do not provide is a KeyError in the code and not modelled",
  "status": "proved"
 },
 "C212": {
  "note": "REFUTED for several chunks: the mask has algo.n_states rows, the arrays those of the chunk: IndexError in every chunk. True for one chunk."
 },
 "C213": {
  "note": "numpy generator arbitrary (state, values in [0,1)); exact real arithmetic.",
  "status": "proved"
 },
 "C214": {
  "note": "REFUTED: a given number of digits is ignored (C214_digits_refuted, C214_always_auto_refuted): the defaults are always used. C214_written_partial: what is written."
 },
 "C215": {
  "note": "Ranges and seeds other than 0 proved; REFUTED for seed 0 (C215_seed_refuted), which is treated as no seed."
 },
 "C216": {
  "note": "C216_plain, C216_structure, C216_value hold. REFUTED: code without target is executed but the text stays (C216_statement_refuted); newline and locals are ignored inside of structures (C216_arguments_refuted); variables leak between calls through the mutable default argument (C216_leak_refuted)."
 },
 "C217": {
  "note": "Lookup, precedence, contents, suffixes proved for all histories. REFUTED: a book cannot be constructed from a book (C217_copy_refuted), only from a dictionary."
 },
 "C218": {
  "note": "One state, centre rotor, any partial wakes points, turbines without yaw and without models that look at positions or directions; exact real arithmetic.",
  "status": "proved"
 },
 "C219": {
  "note": "As C218; target points on the rotors' vertical axes.",
  "status": "proved"
 },
 "C220": {
  "note": "REFUTED in general (C220_created_in_between_refuted: exchanged types give wrong diameters and heights silently, missing types raise KeyError). Proved if the last created algorithm has the same turbine types."
 },
 "C221": {
  "note": "REFUTED in general (C221_other_variables_refuted; C221_first_decides shows that the first calculation decides for all later ones). Proved for histories of algorithms with the same types and state variables."
 },
 "C222": {
  "note": "Proved if no parameters are given for the farm controller; REFUTED otherwise (pre-rotor turbine models never run)."
 },
 "C223": {
  "note": "",
  "status": "proved"
 },
 "C224": {
  "note": "REFUTED for polygons that lie in a hole of another polygon (C224_island_refuted). Proved otherwise, C224_area is the exact rule."
 },
 "C225": {
  "note": "The rule for missing names is proved; REFUTED that all polygons are used (C225_rows_refuted: equal names, missing names)."
 },
 "C226": {
  "note": "Algorithm options proved (C226_options), engine exactly C226_engine. REFUTED: any engine option (e.g. -n 4) drops the whole engine section of the file (C226_engine_section_refuted)."
 },
 "C227": {
  "note": "Proved if the rotor faces the wind at the source (C227_facing_partial) or has one point (C227_one_point); in general the exact error of the downwind coordinate and its bound (C227_offset_partial). REFUTED in general: the downwind coordinate is that of the rotor's first point (C227_own_coordinates_refuted, C227_neighbour_refuted)."
 },
 "C228": {
  "note": "Own superposition, finalization and KeyError proved. REFUTED: on a KeyError the variables before the missing one have been changed (C228_partly_written_refuted)."
 },
 "C229": {
  "note": "Collection of parameters, placement of the models and the unused case proved. REFUTED: whenever a variable is under-relaxed the first iteration raises a TypeError, for all data and models (C229_never_runs_refuted, C229_type_error_refuted)."
 },
 "C230": {
  "note": "Proved for Downwind (downwind and upwind wake models), any number of sweeps of Iterative, the farm's own order (distinct along-wind coordinates, homogeneous wind direction), points, and all superpositions but the product. REFUTED in inhomogeneous wind: the wind direction at such turbines changes the order of calculation (C230_inhomogeneous_refuted)."
 },
 "C231": {
  "note": "Farm level proved for scale free models (C231_enlarged); Jensen, Bastankhah14, Bastankhah16 (deficit and deflection), TurbOPark, IEC, Crespo-Hernandez outside of the first 1e-8 m behind rotors, self similar and Rathmann induction everywhere, Rankine outside of the half bodies. REFUTED within 1e-8 m (C231_near_rotor_refuted) and for the vortex sheet, which rounds distances in meters (C231_vortex_sheet_refuted)."
 },
 "C232": {
  "note": "Proved for all floats: result in [0, 360], error at most 2^-45 degrees, exact and below 360 for non-negative arguments, exact remainder. REFUTED for the half-open interval: for negative directions with a remainder of at most 2^-45 degrees below a full turn the result is 360 itself (characterised by an equivalence)."
 },
 "C233": {
  "note": "Proved: n + 1 bounds for every n up to 2^40; n centres for n <= 160 and whenever 360/n is a float (divisors of 360), centres within 2^-42 degrees. REFUTED: 161 sectors give 162 centres, so that get_data, read_tab_file and WRGStates raise ValueError; in general n or n + 1."
 },
 "C234": {
  "note": "Proved for integer step sizes: exact nodes, coverage of the largest distance. REFUTED for other steps: dx = 12.6 with targets up to 1580 m raises ValueError (np.arange returns one node too many)."
 },
 "C235": {
  "note": "Proved: limits hold up to a relative error of 2^-31 (ambient at most 2^20 times the limit), positivity, unwaked values unchanged bit by bit. REFUTED for the exact limit: lim_low = 1e-4 and ambient 8 m/s give a value below 1e-4."
 },
 "C236": {
  "note": "Proved: pictures up to the first without artists; complete if every yield has artists; foreign figure is ValueError. REFUTED: a picture without artists ends the animation; generators without yields, and a second call of animate, raise UnboundLocalError."
 },
 "C237": {
  "note": "Proved for orientation xy: one picture per state in order; fixed titles. REFUTED: a title function gives all pictures the title of the last state; orientations xz, yz fail (gen_images always calls gen_states_fig_xy)."
 },
 "C238": {
  "note": "Proved: values and coordinates of the stack for unmapped names of the third axis and of states. REFUTED: the third axis is not normalised; mapped names of that axis or of the states raise; variable names are not mapped in means; the file has the last slice only; ret_grid returns normalised axes with a position and points that are not."
 },
 "C239": {
  "note": "Proved for horizontal pictures and for vertical pictures of the default direction. Refuted: vertical pictures of other directions place rotors and arrows wrongly; custom labels with rotor drawing raise UnboundLocalError; without colour bar and given figure nothing is returned; mean yz pictures are labelled x."
 },
 "C240": {
  "note": "Proved for a list of axes and ranges that are multiples of the step. Refuted: other ranges are exceeded; two variables without axes raise IndexError; created axes are not returned; a failing run with power mask leaves the temporary model in the model book."
 },
 "C241": {
  "note": "Cells and turbine labels proved. Refuted: a single state fails; state labels are moved by half of the tick distance instead of half of the cell."
 },
 "C242": {
  "note": "Numbers, values and distances proved. Refuted: the first label may overlap the next one shown."
 },
 "C243": {
  "note": "For wake models without contribution from one group to the other; instance: Jensen wakes at a lateral distance. In inhomogeneous wind the order of calculation may change (C230_inhomogeneous_refuted); the product superposition is not neutral (C27).",
  "status": "proved"
 },
 "C244": {
  "note": "All parts proved for all lists of floats; agreement bit by bit fails for three wakes (C244_exact_refuted), as the statement says.",
  "status": "proved"
 },
 "C245": {
  "note": "Proved for one wind speed variable, centre rotor; product superposition at each place (farm level for the others).",
  "status": "proved"
 },
 "C246": {
  "note": "Wind speeds only (turbulence intensity fixed); product superposition and under-relaxation not covered by the sufficient condition. The two _refuted theorems show what the limit alone does not give.",
  "status": "proved"
 },
 "C247": {
  "note": "One wind speed wake model (with its superposition); local and product superpositions not covered; the last theorem shows that the bound on the sensitivity is needed.",
  "status": "proved"
 },
 "C248": {
  "note": "Refuted: two classes of the same name below one base make the selection depend on the order of a set.",
  "status": "partial"
 },
 "C249": {
  "note": "Colours, sizes and windows proved for all areas of C41. REFUTED (code bugs, proved as such): the dictionary is emptied and given corners are widened in place; half planes need a given lower corner, integer corners raise TypeError. Boundary lines and colour bars are not modelled."
 },
 "C250": {
  "note": "All parts proved over the reals; not yawed, no turbulence model, wake growth k given per turbine, centre rotor and centre partial wakes, one wind deficit model.",
  "status": "proved"
 },
 "C251": {
  "note": "All parts proved over the reals; scope of models as in C250.",
  "status": "proved"
 },
 "C252": {
  "note": "Proved for the iterative algorithm (any order of the models). REFUTED for the downwind algorithm: with the wind deficit model listed first all wakes grow with the turbulence of the state (exact rule proved); proved for it if the growth does not depend on TI.",
  "status": "partial"
 },
 "C254": {
  "note": "Proved for deficits that refer to the ambient wind speed and thrust that does not fall with less wind; refuted by an explicit farm for the default scaling with the waked wind speed (C254_less_wind_refuted)."
 },
 "C257": {
  "note": "Uniform wind, not yawed; limits as stated.",
  "status": "proved"
 },
 "C258": {
  "note": "Complete calculations with mirror planes; partial wakes other than centre with a ground model are C96.",
  "status": "proved"
 },
 "C259": {
  "note": "Exact for texts (C259_texts); pathlib.Path arguments and data book files: refuted for compressed files; verbosity of the json reader refuted."
 },
 "C260": {
  "note": "Balance, uniqueness, bounds and the aligned case proved; the first turbine of the processing order is evaluated without its yaw angle (refuted parts)."
 },
 "C261": {
  "note": "False part (refuted): PandasFileHelper.write_file adds the default formats by column name, so a column named like a default variable is rounded even if it holds another variable without a format."
 },
 "C262": {
  "note": "Proved: existence and uniqueness of what is returned, its exact meaning, bounds, and the full balance for flat thrust. Refuted for thrust curves that fall with the wind speed."
 },
 "C263": {
  "note": "ustar2ti as the last model of a list: proved (C263_ustar_partial, C263_missing). Refuted: tke2ti (C263_tke_refuted: AttributeError for FV.TKE; C263_tke_formula_refuted: factor 3/2) and SetUniformData (C263_uniform_refuted: its constructor does not call the one of the base class)."
 },
 "C264": {
  "note": "C264_turbine_partial and C264_flow_partial: accepted requests. Refuted: empty subset (C264_empty_refuted), several heights in the flow file (C264_heights_refuted), other names (C264_names_refuted), no cases_run (C264_cases_refuted)."
 },
 "C265": {
  "note": "Proved for farms without two turbines at the same distance along the wind: balance with the region in front of the rotors, uniqueness, upper bound, independence of the numbering, for the self similar, self similar 2020 (thrust coefficients up to 1) and Rathmann models. Refuted: turbines side by side, and the region behind the rotors (pre_rotor_only=False), which is dropped for turbines."
 },
 "C266": {
  "note": "Joint_*: Iterative with a wind deficit and a blockage model: the equation of every iteration, fixed points, order of models, numbering, side by side, settling for constant thrust. Refuted: the lower limit of the superpositions is applied to wakes and blockage one at a time (farm_wakes_calc.py:137-150 adds both), so the wind speed falls below the limit common to both. Missing: settling for thrust coefficients that depend on the wind speed."
 },
 "C267": {
  "note": "False for functions with no regard to st_sel whose output replaces their input, with the downwind algorithm (C267_once_refuted): the Calculator is called again for every turbine that is evaluated later and returns whole arrays that are written back, so that a factor 0.9 is applied n-k times at position k (C267_replaced_partial gives the exact number for all functions, turbines and wake models); the downwind and the iterative algorithm then differ. Proved in full for selective functions, for other output variables, for idempotent functions and for the iterative algorithm."
 }
}