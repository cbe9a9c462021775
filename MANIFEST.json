{
 "claims": [
  {
   "property": "C01",
   "status": "proved",
   "theorems": [
    "C01_chunks_partition",
    "C01_float_division",
    "C01_model_division"
   ],
   "note": "Float division: C01_float_division shows that int(a / b) in binary64 is the integer quotient of the model for a + b < 2^53."
  },
  {
   "property": "C02",
   "status": "proved",
   "theorems": [
    "C02_chunks_balanced",
    "C02_chunk_size_exceeded_refuted"
   ],
   "note": "Proved as stated; the stronger reading (never exceeds the requested size) is refuted by C02_chunk_size_exceeded_refuted."
  },
  {
   "property": "C03",
   "status": "proved",
   "theorems": [
    "C03_points_chunked_eq_single",
    "C03_any_partition",
    "C03_farm_chunked"
   ],
   "note": ""
  },
  {
   "property": "C04",
   "status": "proved",
   "theorems": [
    "C04_pool_map_eq_map"
   ],
   "note": ""
  },
  {
   "property": "C05",
   "status": "proved",
   "theorems": [
    "C05_at_most_one_engine",
    "C05_get_engine_returns_active",
    "C05_second_engine_rejected",
    "C05_with_block",
    "C05_default_engine_delegation"
   ],
   "note": ""
  },
  {
   "property": "C06",
   "status": "partial",
   "theorems": [
    "C06_loop_dims_states",
    "C06_loop_dims_targets_refuted",
    "C06_loop_dims_targets_partial"
   ],
   "note": "REFUTED for the point dimension (targets are only reported when the state chunk size is also unset); what does hold is C06_loop_dims_states and C06_loop_dims_targets_partial."
  },
  {
   "property": "C07",
   "status": "proved",
   "theorems": [
    "C07_initialize",
    "C07_initialize_idempotent",
    "C07_running_rejects",
    "C07_finalize"
   ],
   "note": ""
  },
  {
   "property": "C08",
   "status": "proved",
   "theorems": [
    "C08_calculation_restores_models",
    "C08_name_clash_refuted"
   ],
   "note": "Proved for distinct model names (the code generates them); C08_name_clash_refuted shows the hypothesis is needed."
  },
  {
   "property": "C09",
   "status": "partial",
   "theorems": [
    "C09_usable_after_failure_refuted"
   ],
   "note": "REFUTED: there is no try/finally, so after any raising calculation every later call fails."
  },
  {
   "property": "C10",
   "status": "proved",
   "theorems": [
    "C10_read_last_stored",
    "C10_walk_back",
    "C10_missing_predecessor",
    "C10_reset"
   ],
   "note": ""
  },
  {
   "property": "C11",
   "status": "proved",
   "theorems": [
    "C11_results_in_farm_order",
    "C11_order_reorder_cancel",
    "C11_order_applies"
   ],
   "note": ""
  },
  {
   "property": "C12",
   "status": "proved",
   "theorems": [
    "C12_argsort"
   ],
   "note": ""
  },
  {
   "property": "C13",
   "status": "proved",
   "theorems": [
    "C13_no_downstream_influence",
    "C13_first_turbine_ambient",
    "C13_farm_result_unchanged"
   ],
   "note": ""
  },
  {
   "property": "C14",
   "status": "proved",
   "theorems": [
    "C14_renumbering"
   ],
   "note": ""
  },
  {
   "property": "C15",
   "status": "partial",
   "theorems": [
    "C15_reported_inverse_iff_identity_partial",
    "C15_reported_inverse_refuted"
   ],
   "note": "REFUTED: the reported order/order_inv arrays are themselves reordered; they are mutually inverse in the identity order only (exact characterisation in the _partial theorem)."
  },
  {
   "property": "C16",
   "status": "partial",
   "theorems": [
    "C16_post_rotor_value_partial",
    "C16_pre_rotor_value_partial",
    "C16_missing_keeps",
    "C16_user_values_refuted"
   ],
   "note": "REFUTED: set values are stored in the wrong order; the _partial theorems say exactly whose value each turbine gets."
  },
  {
   "property": "C17",
   "status": "partial",
   "theorems": [
    "C17_sector_rule_acts_partial",
    "C17_power_mask_partial",
    "C17_named_turbine_refuted"
   ],
   "note": "REFUTED: per-turbine rules act on the turbine at the processing position, not on the named one."
  },
  {
   "property": "C18",
   "status": "proved",
   "theorems": [
    "C18_merge_respects_every_turbine",
    "C18_merge_terminates",
    "C18_no_duplicates"
   ],
   "note": ""
  },
  {
   "property": "C19",
   "status": "proved",
   "theorems": [
    "C19_complete",
    "C19_exactly"
   ],
   "note": ""
  },
  {
   "property": "C20",
   "status": "partial",
   "theorems": [
    "C20_selection_of_other_model_refuted",
    "C20_exact_partial"
   ],
   "note": "REFUTED: selections are indexed by the position within the pre-/post-rotor group, not within the turbine's list; exact rule proved."
  },
  {
   "property": "C21",
   "status": "partial",
   "theorems": [
    "C21_sweeps_reach_downwind",
    "C21_default_limit_suffices",
    "C21_exact_criterion",
    "C21_feedback_refuted"
   ],
   "note": "Proved for wake model lists in which no earlier listed model reads what a later one changes; refuted without that hypothesis (C21_feedback_refuted)."
  },
  {
   "property": "C22",
   "status": "proved",
   "theorems": [
    "C22_loop"
   ],
   "note": ""
  },
  {
   "property": "C23",
   "status": "proved",
   "theorems": [
    "C23_verdict_means_small_change",
    "C23_independent_of_verbosity",
    "C23_first_iteration_never_accepted",
    "C23_list_needs_all",
    "C23_empty_limits_verbose",
    "C23_nan_never_accepted"
   ],
   "note": ""
  },
  {
   "property": "C24",
   "status": "proved",
   "theorems": [
    "C24_order_independent",
    "C24_single_wake"
   ],
   "note": ""
  },
  {
   "property": "C25",
   "status": "proved",
   "theorems": [
    "C25_upper_limit",
    "C25_lower_limit",
    "C25_product_limits",
    "C25_no_wake_is_ambient",
    "C25_limits_only_cut"
   ],
   "note": ""
  },
  {
   "property": "C26",
   "status": "proved",
   "theorems": [
    "C26_additional_wake_lowers_wind",
    "C26_additional_wake_raises_ti",
    "C26_never_above_ambient",
    "C26_ti_never_below_ambient"
   ],
   "note": ""
  },
  {
   "property": "C27",
   "status": "partial",
   "theorems": [
    "C27_unwaked_farm_refuted",
    "C27_product_partial",
    "C27_reset_forgets_refuted"
   ],
   "note": "REFUTED: zero-initialised deltas are read as factor 0 when add_wake was never called, and the reset test fires again on fully blocked arrays; exact product formula proved otherwise."
  },
  {
   "property": "C28",
   "status": "proved",
   "theorems": [
    "C28_shortest_signed_angle",
    "C28_wind_directions",
    "C28_single_wrap_not_enough_outside"
   ],
   "note": "Exact range of validity proved: within +-540 degrees difference; outside it the single wrap fails (also proved)."
  },
  {
   "property": "C29",
   "status": "proved",
   "theorems": [
    "C29_direction_round_trip",
    "C29_speed_is_length",
    "C29_vector_round_trip",
    "C29_reversed_vector"
   ],
   "note": ""
  },
  {
   "property": "C30",
   "status": "proved",
   "theorems": [
    "C30_relative_absolute_relative",
    "C30_absolute_relative_absolute",
    "C30_boundary_is_sharp"
   ],
   "note": ""
  },
  {
   "property": "C31",
   "status": "proved",
   "theorems": [
    "C31_isometry",
    "C31_rotor_is_origin",
    "C31_centreline"
   ],
   "note": ""
  },
  {
   "property": "C32",
   "status": "proved",
   "theorems": [
    "C32_is_intersection_area",
    "C32_bounds",
    "C32_symmetric",
    "C32_disjoint_or_contained",
    "C32_grows_with_radius"
   ],
   "note": ""
  },
  {
   "property": "C33",
   "status": "proved",
   "theorems": [
    "C33_weight_is_overlap_fraction",
    "C33_weight_in_unit_interval",
    "C33_inside_and_outside"
   ],
   "note": ""
  },
  {
   "property": "C34",
   "status": "proved",
   "theorems": [
    "C34_values_are_roots",
    "C34_shape",
    "C34_three_real_roots"
   ],
   "note": ""
  },
  {
   "property": "C35",
   "status": "proved",
   "theorems": [
    "C35_below_half",
    "C35_nonneg",
    "C35_monotone",
    "C35_inverts_thrust"
   ],
   "note": ""
  },
  {
   "property": "C36",
   "status": "proved",
   "theorems": [
    "C36_bounds",
    "C36_zero",
    "C36_recovers",
    "C36_formula",
    "C36_betz_physical",
    "C36_madsen_physical"
   ],
   "note": ""
  },
  {
   "property": "C37",
   "status": "proved",
   "theorems": [
    "C37_bounds",
    "C37_decays_radially",
    "C37_recovers_on_axis",
    "C37_zero",
    "C37_strictly_negative_inside"
   ],
   "note": ""
  },
  {
   "property": "C38",
   "status": "proved",
   "theorems": [
    "C38_grid_is_good_rule",
    "C38_levels_are_good_rule",
    "C38_centre_is_good_rule",
    "C38_uniform_wind",
    "C38_other_variables",
    "C38_linear_shear",
    "C38_rews_bounds",
    "C38_two_sublevels_leave_no_points"
   ],
   "note": "Also proves centred first moments (linear shear) and that nint>=3 is necessary for LevelRotor (nint=2 leaves no points)."
  },
  {
   "property": "C39",
   "status": "proved",
   "theorems": [
    "C39_power_law_reference",
    "C39_neutral_reference",
    "C39_stable_reference",
    "C39_unstable_reference",
    "C39_power_law_shape",
    "C39_neutral_shape",
    "C39_stable_shape",
    "C39_unstable_monotone",
    "C39_combined_profile"
   ],
   "note": ""
  },
  {
   "property": "C40",
   "status": "proved",
   "theorems": [
    "C40_set_algebra",
    "C40_double_inverse",
    "C40_half_plane_boundary"
   ],
   "note": "Set algebra for all nested expressions at points off half-plane boundary lines; at a boundary line a half plane and its inverse both contain the point (C40_half_plane_boundary)."
  },
  {
   "property": "C41",
   "status": "partial",
   "theorems": [
    "C41_boxes_refuted",
    "C41_lower_corner_partial",
    "C41_upper_corner_partial"
   ],
   "note": "REFUTED: a bounded intersection of diagonal half planes reports the box (+inf,-inf); proved for all geometries none of whose parts reports an inverted infinite corner."
  },
  {
   "property": "C42",
   "status": "partial",
   "theorems": [
    "C42_half_plane",
    "C42_circle",
    "C42_polygon",
    "C42_circle_nearest_partial",
    "C42_circle_nearest_refuted",
    "C42_circle_nearest_centre_refuted"
   ],
   "note": "Distances proved for half planes, circles and polygons. REFUTED for the circle's nearest points when the centre is among the query points (ValueError)."
  },
  {
   "property": "C43",
   "status": "partial",
   "theorems": [
    "C43_state_mean_bounds",
    "C43_state_mean_constant",
    "C43_unweighted_mean_bounds",
    "C43_farm_power_sum_of_means",
    "C43_farm_power_mean_of_sums",
    "C43_farm_sum",
    "C43_nan_states_bounds",
    "C43_extremes_attained",
    "C43_farm_mean_refuted",
    "C43_turbine_mean_refuted"
   ],
   "note": "Bounds, constants, farm power contraction orders, NaN states proved. REFUTED: calc_farm_mean and reduce_all(mean_no_weights) return sums over turbines."
  },
  {
   "property": "C44",
   "status": "partial",
   "theorems": [
    "C44_annual_yield",
    "C44_timeseries_energy",
    "C44_ambient_farm_yield_refuted",
    "C44_farm_yield_partial"
   ],
   "note": "Annual yield and time-series energy proved. REFUTED: calc_farm_yield(ambient=True) raises KeyError."
  },
  {
   "property": "C45",
   "status": "proved",
   "theorems": [
    "C45_turbine_efficiency",
    "C45_farm_efficiency",
    "C45_capacity"
   ],
   "note": ""
  },
  {
   "property": "C46",
   "status": "proved",
   "theorems": [
    "C46_within_table",
    "C46_exact_at_nodes",
    "C46_zero_outside",
    "C46_monotone"
   ],
   "note": "One element of the arrays; np.interp with zero values outside the table. Values stay within the table's range, nodes are hit exactly, zero outside, monotone up to the last node if the table is."
  },
  {
   "property": "C47",
   "status": "partial",
   "theorems": [
    "C47_shared_type_refuted",
    "C47_distinct_variables_partial"
   ],
   "note": "REFUTED when power and thrust read the same wind speed variable and st_sel is a basic index: rews2/rews3 are then views of the farm data, so the in-place corrections are applied to both and persist. Exact values of both cases are proved; holds for different variables."
  },
  {
   "property": "C48",
   "status": "partial",
   "theorems": [
    "C48_cutin_once_refuted",
    "C48_single_type_partial"
   ],
   "note": "REFUTED for two or more turbines of one type: initialize calls modify_cutin once per turbine on the same object, each call smooths the curve again. One call behaves as intended (partial)."
  },
  {
   "property": "C49",
   "status": "proved",
   "theorems": [
    "C49_template_meaning",
    "C49_round_trip",
    "C49_arguments",
    "C49_plain_separators"
   ],
   "note": "Templates are parsed as in Factory.__init__; the values of a rendered name are recovered exactly and converted by the options."
  },
  {
   "property": "C50",
   "status": "partial",
   "theorems": [
    "C50_trailing_text_refuted",
    "C50_accepts_instances_partial",
    "C50_open_templates_partial"
   ],
   "note": "REFUTED for templates that end with text (or have no variable): trailing text is ignored, e.g. grid16_rawhide is grid16_raw. Exact characterisation of accepted names; for templates ending with a variable exactly the instances are accepted."
  },
  {
   "property": "C51",
   "status": "partial",
   "theorems": [
    "C51_same_object_afterwards",
    "C51_entries_kept",
    "C51_lookup_implies_membership",
    "C51_membership_refuted",
    "C51_membership_partial"
   ],
   "note": "Lookups are stable over all histories and never replace entries. REFUTED: membership does not imply lookup (kTI_abc raises KeyError, kTI_02_ raises IndexError). Base class constructors are abstract."
  },
  {
   "property": "C52",
   "status": "proved",
   "theorems": [
    "C52_scan_weights",
    "C52_scan_visits_once",
    "C52_scan_rows_are_combinations",
    "C52_table_weights",
    "C52_single_weight",
    "C52_wind_rose_weights",
    "C52_bin_centres"
   ],
   "note": "Scan (mixed radix bijection between rows and combinations), single, table and wind-rose weights over the reals; the wind rose needs non-negative frequencies and positive sector sums."
  },
  {
   "property": "C53",
   "status": "proved",
   "theorems": [
    "C53_own_column",
    "C53_loads",
    "C53_missing_rejected"
   ],
   "note": "For every order of the variable set; missing columns are rejected at the latest by the data set's size check (xarray, modelled)."
  },
  {
   "property": "C54",
   "status": "partial",
   "theorems": [
    "C54_numbering",
    "C54_row",
    "C54_grid",
    "C54_ring_float_partial",
    "C54_ring_bearing",
    "C54_ring_spacing_refuted",
    "C54_ring_int_refuted",
    "C54_ring_collapse_refuted"
   ],
   "note": "REFUTED for rings: neighbours of add_ring are nearer than dist (dist is the arc length), and an integer offset (the default 0) truncates angle steps to whole degrees, so that >360 turbines coincide. Numbering, names, rows and grids proved."
  },
  {
   "property": "C55",
   "status": "partial",
   "theorems": [
    "C55_shared_models_refuted",
    "C55_own_lists_partial",
    "C55_aligned_partial"
   ],
   "note": "REFUTED: turbines created from the same list object (one layout call, or the default argument) share their model lists. Proved over all histories if every turbine has its own list."
  },
  {
   "property": "C56",
   "status": "partial",
   "theorems": [
    "C56_sizes_agree_partial",
    "C56_conflict_raises_partial",
    "C56_xyh_refuted",
    "C56_rejected_is_stored_refuted"
   ],
   "note": "REFUTED in two corners: the automatic entry txyh does not register the size of its last dimension, and a rejected addition raises but stays stored. Proved for all other dimensions over all accepted histories."
  },
  {
   "property": "C57",
   "status": "partial",
   "theorems": [
    "C57_farm_data_partial",
    "C57_other_data_partial",
    "C57_model_data_refuted",
    "C57_target_data_refuted",
    "C57_turbine_target_rejects_index"
   ],
   "note": "REFUTED for turbine dependent model or target data: the full array is returned instead of the slice (model.py lines 420, 447). Proved for farm data and for data without turbine dimension."
  },
  {
   "property": "C58",
   "status": "partial",
   "theorems": [
    "C58_max_ti_refuted",
    "C58_exact_partial"
   ],
   "note": "REFUTED: np.maximum makes the limit a lower limit."
  },
  {
   "property": "C59",
   "status": "proved",
   "theorems": [
    "C59_heights_restored",
    "C59_reflection_involution",
    "C59_contributions"
   ],
   "note": ""
  },
  {
   "property": "C60",
   "status": "proved",
   "theorems": [
    "C60_accumulates",
    "C60_single",
    "C60_output_variables",
    "C60_wrong_parameters_rejected",
    "C60_no_parameters"
   ],
   "note": ""
  },
  {
   "property": "C61",
   "status": "proved",
   "theorems": [
    "C61_exactly_one_type"
   ],
   "note": ""
  },
  {
   "property": "C62",
   "status": "partial",
   "theorems": [
    "C62_rejected",
    "C62_otherwise_accepted",
    "C62_value_partial",
    "C62_dynamic_refuted"
   ],
   "note": "REFUTED under dynamic wakes with a farm variable of the same name (see C94). Rejection rule and value proved otherwise."
  },
  {
   "property": "C63",
   "status": "partial",
   "theorems": [
    "C63_rejected_engine_reusable_refuted"
   ],
   "note": "REFUTED: a rejected __enter__ marks the engine as entered before raising."
  },
  {
   "property": "C64",
   "status": "partial",
   "theorems": [
    "C64_shared_submodel_refuted"
   ],
   "note": "REFUTED by a two-parent witness."
  },
  {
   "property": "C65",
   "status": "partial",
   "theorems": [
    "C65_error_false_never_raises_refuted",
    "C65_error_false_nonempty_partial"
   ],
   "note": "REFUTED on the empty store (IndexError); holds for every non-empty store."
  },
  {
   "property": "C66",
   "status": "proved",
   "theorems": [
    "C66_merge_keeps_all_chunks"
   ],
   "note": ""
  },
  {
   "property": "C67",
   "status": "partial",
   "theorems": [
    "C67_threads_noniterative_partial",
    "C67_threads_iterative_refuted"
   ],
   "note": "REFUTED for iterative runs: each worker ends by replacing the shared algorithm's chunk store; proved for one-shot runs under every interleaving."
  },
  {
   "property": "C68",
   "status": "partial",
   "theorems": [
    "C68_returned_results_partial",
    "C68_last_iteration_refuted"
   ],
   "note": "REFUTED: the final run re-orders self.__prev_farm_results, i.e. the results of the last but one iteration; exact characterisation proved."
  },
  {
   "property": "C69",
   "status": "partial",
   "theorems": [
    "C69_ambient_never_reordered",
    "C69_farm_order_refuted"
   ],
   "note": "REFUTED: the ambient / single-iteration path never runs ReorderFarmOutput; proved for every such run (C69_ambient_never_reordered)."
  },
  {
   "property": "C70",
   "status": "partial",
   "theorems": [
    "C70_wake_model_list_order_refuted",
    "C70_independent_models_commute_partial"
   ],
   "note": "REFUTED when an earlier listed model reads what a later one changes (e.g. wake growth from TI); proved for independent models."
  },
  {
   "property": "C71",
   "status": "partial",
   "theorems": [
    "C71_inhomogeneous_wind_refuted"
   ],
   "note": "REFUTED with a three turbine farm."
  },
  {
   "property": "C72",
   "status": "proved",
   "theorems": [
    "C72_mixing_rejected"
   ],
   "note": ""
  },
  {
   "property": "C73",
   "status": "partial",
   "theorems": [
    "C73_late_pre_rotor_model_refuted",
    "C73_exact_check_partial"
   ],
   "note": "REFUTED: the check restarts for each listed model name (prer = None, line 247); exact check characterised."
  },
  {
   "property": "C74",
   "status": "partial",
   "theorems": [
    "C74_own_selection_partial",
    "C74_repeated_model_refuted"
   ],
   "note": "REFUTED for repeated names (lookup by name finds the first entry); proved for repetition-free lists."
  },
  {
   "property": "C75",
   "status": "partial",
   "theorems": [
    "C75_linear_speedup_partial",
    "C75_speedup_counts_as_deficit_refuted"
   ],
   "note": "REFUTED for quadratic, power and maximum superpositions (they count a speed-up as a deficit of the same size); proved for linear."
  },
  {
   "property": "C76",
   "status": "partial",
   "theorems": [
    "C76_product_depends_on_chunk_refuted"
   ],
   "note": "REFUTED by witness: depends on whether any other element of the chunk is waked."
  },
  {
   "property": "C77",
   "status": "partial",
   "theorems": [
    "C77_target_rotor_refuted",
    "C77_equal_diameters_partial"
   ],
   "note": "REFUTED: the weight uses the rotor of the wake causing turbine; equals the target fraction for equal diameters (proved)."
  },
  {
   "property": "C78",
   "status": "partial",
   "theorems": [
    "C78_finds_roots_refuted",
    "C78_batch_accepted_iff",
    "C78_no_root_iff",
    "C78_all_roots_partial"
   ],
   "note": "REFUTED: rows with D>0 or Q=R=0 give NaN, mixed batches raise IndexError; exact characterisation and the D<=0 case proved."
  },
  {
   "property": "C79",
   "status": "partial",
   "theorems": [
    "C79_boost_beyond_limit_refuted",
    "C79_consistent_thrust_partial",
    "C79_unique_induction",
    "C79_derating_lowers_thrust"
   ],
   "note": "REFUTED for boosts beyond the Betz limit (thrust -inf); proved below it. Model covers the selected turbines' thrust (power_mask.py:190-206) as a function of cp/e."
  },
  {
   "property": "C80",
   "status": "partial",
   "theorems": [
    "C80_never_negative_refuted",
    "C80_within_90_degrees"
   ],
   "note": "REFUTED for the centre rotor beyond 90 degrees misalignment (negative REWS); agreement and non-negativity proved within 90 degrees."
  },
  {
   "property": "C81",
   "status": "proved",
   "theorems": [
    "C81_points_in_rotor_plane",
    "C81_distance_from_hub",
    "C81_weighted_centre_is_hub"
   ],
   "note": ""
  },
  {
   "property": "C82",
   "status": "proved",
   "theorems": [
    "C82_named_combination"
   ],
   "note": ""
  },
  {
   "property": "C83",
   "status": "partial",
   "theorems": [
    "C83_nonnegative_refuted",
    "C83_nonnegative_above_partial"
   ],
   "note": "REFUTED for the unstable profile (negative at the roughness length); proved for the others via C39 and above the zero crossing."
  },
  {
   "property": "C84",
   "status": "partial",
   "theorems": [
    "C84_safe_radius",
    "C84_outside_exact",
    "C84_inside_refuted"
   ],
   "note": "Safe radius and outside exactness proved; REFUTED inside overlapping unions (only a lower bound). Polygon containment is a hypothesis (traces) since matplotlib's Path is not modelled."
  },
  {
   "property": "C85",
   "status": "partial",
   "theorems": [
    "C85_capacity_refuted",
    "C85_watts_partial"
   ],
   "note": "REFUTED for units other than W: the largest table entry, already in P_unit, is divided by the unit factor, so the capacity at rated power equals the unit factor (1000 for kW). Holds for W."
  },
  {
   "property": "C86",
   "status": "partial",
   "theorems": [
    "C86_numbers",
    "C86_growth_parameters",
    "C86_registration_order",
    "C86_decimal_numbers_refuted"
   ],
   "note": "Resolution order over the six registered templates proved for every base name, superposition name without '_k'/'_ambka' and digit strings. REFUTED for decimal points: Jensen_linear_k0.04 silently creates a model without k; yawed_k0.04 likewise. python float parsing is modelled on plain digits with at most one dot."
  },
  {
   "property": "C87",
   "status": "partial",
   "theorems": [
    "C87_profile_instead_of_column_refuted",
    "C87_profile_with_column_partial"
   ],
   "note": "REFUTED: load_data skips the missing column but keeps the variable in the coordinates, so that the data set always fails with ValueError."
  },
  {
   "property": "C88",
   "status": "partial",
   "theorems": [
    "C88_initialise_again_refuted",
    "C88_without_dicts_partial"
   ],
   "note": "REFUTED for profiles given as dict: initialize pops the key 'type' from the user's dict; the second initialisation raises KeyError. Holds for names and objects."
  },
  {
   "property": "C89",
   "status": "proved",
   "theorems": [
    "C89_bounds_enclose",
    "C89_bounds_attained"
   ],
   "note": ""
  },
  {
   "property": "C90",
   "status": "partial",
   "theorems": [
    "C90_generated_partial",
    "C90_stale_coordinate_refuted"
   ],
   "note": "REFUTED: a coordinate generated while the dimension has size one is not updated when it grows."
  },
  {
   "property": "C91",
   "status": "partial",
   "theorems": [
    "C91_created_partial",
    "C91_stale_positions_refuted"
   ],
   "note": "REFUTED: adding X, Y or H later leaves txyh stale (the code only creates it if missing). Creation proved correct."
  },
  {
   "property": "C92",
   "status": "proved",
   "theorems": [
    "C92_slice_counter"
   ],
   "note": ""
  },
  {
   "property": "C93",
   "status": "partial",
   "theorems": [
    "C93_one_axis_partial",
    "C93_two_axes_refuted"
   ],
   "note": "REFUTED for two extra axes: each squeeze starts from the original array. One axis proved."
  },
  {
   "property": "C94",
   "status": "partial",
   "theorems": [
    "C94_own_parameter_partial",
    "C94_own_parameter_refuted"
   ],
   "note": "REFUTED: the stage that inserts data of other states overwrites whatever was found, also the model's own parameter."
  },
  {
   "property": "C95",
   "status": "proved",
   "theorems": [
    "C95_source_states",
    "C95_mean_state_between",
    "C95_source_of_target"
   ],
   "note": ""
  },
  {
   "property": "C96",
   "status": "partial",
   "theorems": [
    "C96_direct_wake_refuted",
    "C96_point_models_partial"
   ],
   "note": "REFUTED for top-hat partial wakes: the direct wake bypasses the partial wakes model. Equal for plain point evaluation."
  },
  {
   "property": "C97",
   "status": "partial",
   "theorems": [
    "C97_point_sums_partial",
    "C97_right_sums",
    "C97_farm_sums_refuted"
   ],
   "note": "REFUTED for farm models: default parameters=[] makes nested chains raise. Proved for point models."
  },
  {
   "property": "C98",
   "status": "proved",
   "theorems": [
    "C98_plane_symmetry"
   ],
   "note": ""
  },
  {
   "property": "C99",
   "status": "partial",
   "theorems": [
    "C99_deltas_partial",
    "C99_normalize_refuted"
   ],
   "note": "REFUTED with normalisation (always KeyError)."
  },
  {
   "property": "C100",
   "status": "proved",
   "theorems": [
    "C100_weights_inside",
    "C100_weights_outside",
    "C100_weights_sum",
    "C100_average"
   ],
   "note": "exact: weights inside are ring area / disc area by C32's slice integral; outside each of the n areas is increased by 1e-15 m^2 as in the code"
  },
  {
   "property": "C101",
   "status": "partial",
   "theorems": [
    "C101_rim_refuted",
    "C101_neighbours_partial"
   ],
   "note": "REFUTED at lateral distance D/2 exactly; proved for all other positions (constant wake)"
  },
  {
   "property": "C102",
   "status": "partial",
   "theorems": [
    "C102_target_size_refuted",
    "C102_equal_diameters_partial"
   ],
   "note": "REFUTED for unequal diameters; proved for equal ones"
  },
  {
   "property": "C103",
   "status": "proved",
   "theorems": [
    "C103_bounds",
    "C103_strongest_on_axis",
    "C103_recovers_downstream",
    "C103_none_upstream"
   ],
   "note": ""
  },
  {
   "property": "C104",
   "status": "partial",
   "theorems": [
    "C104_deflection_continuous",
    "C104_deficit_jump_refuted",
    "C104_unyawed_partial"
   ],
   "note": "deflection: proved continuous. deficit: REFUTED for yawed turbines, proved without yaw"
  },
  {
   "property": "C105",
   "status": "partial",
   "theorems": [
    "C105_shifted_by_deflection_partial",
    "C105_unyawed_partial",
    "C105_points_collapse_refuted",
    "C105_example_refuted"
   ],
   "note": "proved for one target point, REFUTED for several"
  },
  {
   "property": "C106",
   "status": "partial",
   "theorems": [
    "C106_centreline_refuted",
    "C106_undeflected_partial"
   ],
   "note": "REFUTED; exact location -2 x deflection proved"
  },
  {
   "property": "C107",
   "status": "partial",
   "theorems": [
    "C107_own_parameters_refuted",
    "C107_equal_parameters_partial"
   ],
   "note": "REFUTED; proved when all models of the type have equal parameters"
  },
  {
   "property": "C108",
   "status": "proved",
   "theorems": [
    "C108_bounds",
    "C108_zero_outside",
    "C108_positive_inside",
    "C108_decays",
    "C108_grows_with_thrust",
    "C108_opening_angle",
    "C108_linear_radius"
   ],
   "note": ""
  },
  {
   "property": "C109",
   "status": "partial",
   "theorems": [
    "C109_bounds",
    "C109_continuous",
    "C109_decays",
    "C109_zero_outside",
    "C109_wake_radius",
    "C109_given_length_refuted"
   ],
   "note": "Bounds, continuity and decay proved for the computed near wake length. REFUTED for user-given near_wake_D: every value other than the computed one gives a jump (C109_given_length_refuted). numpy's ** is Rpower, i.e. ti > 0 and ct2a ct > 0."
  },
  {
   "property": "C110",
   "status": "proved",
   "theorems": [
    "C110_initial_width",
    "C110_expansion_law",
    "C110_frandsen",
    "C110_widens",
    "C110_bounds",
    "C110_zero",
    "C110_recovers",
    "C110_not_deeper_than_gaussian"
   ],
   "note": ""
  },
  {
   "property": "C111",
   "status": "partial",
   "theorems": [
    "C111_value",
    "C111_constant_exact",
    "C111_error",
    "C111_grows",
    "C111_monotone",
    "C111_linear",
    "C111_beyond_refuted",
    "C111_width_shrinks_refuted"
   ],
   "note": "Value, exactness, error and independence of other targets proved for targets up to the maximal wake length. REFUTED beyond it: interpn's fill value 0 is returned, so TurbOParkWakeIX's width shrinks. Float rounding of the grid, NaN targets, and ipars are not modelled."
  },
  {
   "property": "C112",
   "status": "proved",
   "theorems": [
    "C112_bounded",
    "C112_slows_upstream",
    "C112_grows_towards_rotor",
    "C112_mirrored",
    "C112_nothing_behind",
    "C112_far_decay",
    "C112_at_rotor_centre",
    "C112_rounding"
   ],
   "note": "np.round(x, 12) is modelled exactly over the reals (ties to even)."
  },
  {
   "property": "C113",
   "status": "proved",
   "theorems": [
    "C113_bounded",
    "C113_radial_decay",
    "C113_axis_growth",
    "C113_mirrored",
    "C113_nothing_behind",
    "C113_centre",
    "C113_2020_bounded",
    "C113_2020_radial_decay",
    "C113_2020_thrust_factor",
    "C113_2020_mirrored",
    "C113_2020_nothing_behind"
   ],
   "note": "Axis growth is stated for SelfSimilar; for the 2020 version the thrust factor varies with distance and no growth claim is made."
  },
  {
   "property": "C114",
   "status": "partial",
   "theorems": [
    "C114_bounded",
    "C114_mirrored",
    "C114_on_axis",
    "C114_growth_refuted",
    "C114_growth_partial"
   ],
   "note": "REFUTED: on the axis the code's blockage is a*mu(x)*min(1,|x/R|) (C114_on_axis): zero at the rotor. Growth proved upstream of one radius; bounds hold off the rotor edge (x = 0, r = R, where the code divides 0 by 0)."
  },
  {
   "property": "C115",
   "status": "proved",
   "theorems": [
    "C115_speed",
    "C115_no_reversal",
    "C115_speed_12_decimals",
    "C115_sign",
    "C115_stagnation",
    "C115_upstream_axis"
   ],
   "note": "Proved for all positions, ws >= 1e-15 m/s, D >= 1 m and induction models with a >= 0.24 ct (e.g. Betz, Madsen)."
  },
  {
   "property": "C116",
   "status": "proved",
   "theorems": [
    "C116_wake_points_follow_the_wind"
   ],
   "note": "One wake causing turbine, ambient data free of NaN."
  },
  {
   "property": "C117",
   "status": "proved",
   "theorems": [
    "C117_converged_wakes_are_complete",
    "C117_converged_coordinates_do_not_depend_on_chunks"
   ],
   "note": "Completeness up to max_length_km and max_age; beyond it see C119."
  },
  {
   "property": "C118",
   "status": "partial",
   "theorems": [
    "C118_wakes_settle",
    "C118_wakes_do_not_settle_earlier",
    "C118_default_limit_refuted"
   ],
   "note": "REFUTED for the default number of iterations: settling needs about 2C iterations for C chunks (both bounds proved), the default limit is n_turbines^2 + 3 and knows nothing about chunks; the loop then ends silently."
  },
  {
   "property": "C119",
   "status": "partial",
   "theorems": [
    "C119_chunks_refuted",
    "C119_wakes_cut_at_chunk_borders"
   ],
   "note": "REFUTED beyond max_length_km: inside a chunk wakes are continued until all rows are long, across chunk borders only if shorter than the maximum."
  },
  {
   "property": "C120",
   "status": "partial",
   "theorems": [
    "C120_steady_wind",
    "C120_age_one_has_no_wakes",
    "C120_hourly_default_refuted"
   ],
   "note": "REFUTED for the default maximal age with hourly data: max_age = 1, for which the direction of every wake point is zero and no target is in any wake. Proved for max_age >= 2."
  },
  {
   "property": "C121",
   "status": "partial",
   "theorems": [
    "C121_hub_value_one_model",
    "C121_hub_value_several_models",
    "C121_two_limited_models_refuted",
    "C121_product_values",
    "C121_product_refuted"
   ],
   "note": "Proved for one wake model, and for several wake models with linear superposition. REFUTED for several models with limited superpositions: the point calculation finalises all models' deltas on the ambient value once, the farm calculation one model after the other. REFUTED for product superposition (points get the product of both factors, the exact formula is C121_product_values)."
  },
  {
   "property": "C122",
   "status": "partial",
   "theorems": [
    "C122_same_points_same_mean",
    "C122_mean_effect",
    "C122_enumeration_partial",
    "C122_enumeration_refuted"
   ],
   "note": "Mean effect proved; enumeration independence proved when the counts of rotor points and partial wake points differ, REFUTED when they agree (ambient of the i-th rotor point is paired with the i-th partial wake point)."
  },
  {
   "property": "C123",
   "status": "partial",
   "theorems": [
    "C123_no_farm_results_refuted",
    "C123_with_farm_results_partial"
   ],
   "note": "REFUTED: AttributeError without farm results (see theorem); with farm results the checks pass."
  },
  {
   "property": "C124",
   "status": "proved",
   "theorems": [
    "C124_broadcast_points",
    "C124_full_points",
    "C124_broadcast_farm",
    "C124_full_farm"
   ],
   "note": ""
  },
  {
   "property": "C125",
   "status": "proved",
   "theorems": [
    "C125_model_applied_where_named"
   ],
   "note": ""
  },
  {
   "property": "C126",
   "status": "partial",
   "theorems": [
    "C126_used_by_all_turbines_refuted",
    "C126_in_wake_calculations_refuted",
    "C126_factors_partial"
   ],
   "note": "REFUTED: index tuples are passed when all turbines use the model or when wakes are evaluated; the models apply & or np.sum to them. Whole-farm evaluations with boolean selections work (C126_factors_partial)."
  },
  {
   "property": "C127",
   "status": "partial",
   "theorems": [
    "C127_values_partial",
    "C127_thrust_refuted",
    "C127_density_refuted"
   ],
   "note": "Exact values proved for boolean selections. REFUTED: thrust is looked up at the power wind speed; with density correction the calculation fails if turbines are inside and outside of the range."
  },
  {
   "property": "C128",
   "status": "partial",
   "theorems": [
    "C128_sector",
    "C128_interval",
    "C128_all_ranges",
    "C128_full_circle_refuted"
   ],
   "note": "Proved for all sectors except the full circle, for which it is REFUTED (0 to 360 matches nothing)."
  },
  {
   "property": "C129",
   "status": "partial",
   "theorems": [
    "C129_wake_growth",
    "C129_kti_from_farm_data",
    "C129_given_turbulence_refuted",
    "C129_kb_from_farm_data_refuted"
   ],
   "note": "Formula proved; REFUTED for ti_val, which is ignored."
  },
  {
   "property": "C130",
   "status": "proved",
   "theorems": [
    "C130_within_series",
    "C130_constant_series",
    "C130_reference_point"
   ],
   "note": "Real arithmetic, one state and point; the wind profile models and the height dependence are not modelled."
  },
  {
   "property": "C131",
   "status": "partial",
   "theorems": [
    "C131_transport_partial",
    "C131_far_upstream",
    "C131_before_the_series_refuted",
    "C131_first_step_refuted",
    "C131_whole_steps_upstream_refuted",
    "C131_last_step",
    "C131_irregular_times_refuted"
   ],
   "note": "REFUTED in part: C131_transport_partial proves transport for constant wind and equal time steps; far downstream the last state's data are used, in the first step first and last state are mixed (index -1), exactly whole steps upstream the result is one state late, irregular time steps use the wrong step."
  },
  {
   "property": "C132",
   "status": "proved",
   "theorems": [
    "C132_wake_follows_the_air",
    "C132_causal",
    "C132_chunks"
   ],
   "note": "Proved for all histories. NaN-free data, one hub height level."
  },
  {
   "property": "C133",
   "status": "proved",
   "theorems": [
    "C133_straight",
    "C133_found",
    "C133_outside"
   ],
   "note": "Proved; the turbine's hub height is one of the timeline heights."
  },
  {
   "property": "C134",
   "status": "partial",
   "theorems": [
    "C134_centreline_point",
    "C134_sign_refuted",
    "C134_whole_steps",
    "C134_chunks_refuted",
    "C134_not_the_wake_refuted",
    "C134_last_state_refuted"
   ],
   "note": "REFUTED: the point is mirrored at the nearest whole step (sign error), the trace starts at the chunk-local state index, and it uses the displacement of the present state while coordinates use those of earlier states; distance zero in the last state is an IndexError. C134_centreline_point is the exact characterisation in steady wind, C134_whole_steps the correct case."
  },
  {
   "property": "C135",
   "status": "proved",
   "theorems": [
    "C135_uniform_direction",
    "C135_follows_the_wind",
    "C135_nearest_point"
   ],
   "note": "Proved in real arithmetic for one state; heights are plain differences and not modelled."
  },
  {
   "property": "C136",
   "status": "partial",
   "theorems": [
    "C136_no_wakes_refuted",
    "C136_fresh_model_data"
   ],
   "note": "REFUTED: the order is calculated while AMB_WD is NaN; streamlines are NaN and kept in the model data, so all wake coordinates are NaN: farm order and no wakes (C136_no_wakes_refuted, for every farm). C136_fresh_model_data shows what recalculation would give."
  },
  {
   "property": "C137",
   "status": "partial",
   "theorems": [
    "C137_order_partial",
    "C137_upstream_turbine_last_refuted"
   ],
   "note": "REFUTED in general: NaN coordinates of upstream turbines in the last turbine's frame sort last. C137_order_partial: correct if no turbine is a step or more upstream of the last turbine of the farm and all are within the streamline length."
  },
  {
   "property": "C138",
   "status": "partial",
   "theorems": [
    "C138_each_state_once",
    "C138_interrupted",
    "C138_ends",
    "C138_next_at_the_end_refuted",
    "C138_duplicate_labels_refuted"
   ],
   "note": "The loop part is proved for all histories; REFUTED: next after the end is a TypeError, and duplicate labels (e.g. clock change) make all states fail."
  },
  {
   "property": "C139",
   "status": "partial",
   "theorems": [
    "C139_repeat",
    "C139_second_loop_refuted"
   ],
   "note": "Proved for models without memory; REFUTED for SeqDynamicWakes, whose traces survive: exact range of the second loop's first state."
  },
  {
   "property": "C140",
   "status": "partial",
   "theorems": [
    "C140_same_results",
    "C140_index_zero_refuted",
    "C140_turbine_does_not_move_refuted"
   ],
   "note": "Proved if nothing is looked up by state index; REFUTED otherwise: every sequential state looks up index 0, e.g. moving turbines do not move."
  },
  {
   "property": "C141",
   "status": "proved",
   "theorems": [
    "C141_traces",
    "C141_nearest",
    "C141_steady",
    "C141_repeated_calls"
   ],
   "note": "Paths, nearest point and steady wind for all time series."
  },
  {
   "property": "C142",
   "status": "partial",
   "theorems": [
    "C142_same_order",
    "C142_order_change_refuted"
   ],
   "note": "Proved for an unchanged place in the order; REFUTED: traces are stored by downwind position, so after a change of the order they belong to another turbine."
  },
  {
   "property": "C143",
   "status": "partial",
   "theorems": [
    "C143_called_in_all_states",
    "C143_one_turbine_refuted",
    "C143_workers_refuted"
   ],
   "note": "Proved if all states are evaluated in the main process; REFUTED for one-turbine farms and for process engines: the wake ends after one time step."
  },
  {
   "property": "C144",
   "status": "partial",
   "theorems": [
    "C144_positions",
    "C144_farm_changed_refuted"
   ],
   "note": "The values are proved for all chunks; REFUTED: the farm object is changed, and a later calculation without the model uses these positions or fails."
  },
  {
   "property": "C145",
   "status": "partial",
   "theorems": [
    "C145_own_value",
    "C145_without_model",
    "C145_turbine_type_refuted",
    "C145_chunks_refuted"
   ],
   "note": "REFUTED: unset states get NaN if the value is the turbine type's; shape error with two or more chunks of states. Proved for turbines with own values and one chunk."
  },
  {
   "property": "C146",
   "status": "partial",
   "theorems": [
    "C146_first_calculation",
    "C146_second_calculation_refuted",
    "C146_sequential_refuted",
    "C146_not_once"
   ],
   "note": "First calculation proved; REFUTED for calculations after the first without new initialization, and for the Sequential algorithm."
  },
  {
   "property": "C147",
   "status": "partial",
   "theorems": [
    "C147_y_window",
    "C147_x_window_refuted",
    "C147_turbine_outside_refuted",
    "C147_empty_refuted",
    "C147_other_farm_refuted",
    "C147_descending_refuted"
   ],
   "note": "Proved for y. REFUTED for x: the upper bound is the largest y value (line 390), characterised exactly; turbines further east are outside, the grid may be empty. REFUTED: the window of the first farm is kept; descending coordinates select nothing."
  },
  {
   "property": "C148",
   "status": "partial",
   "theorems": [
    "C148_variables",
    "C148_fixed_wd_refuted",
    "C148_fixed_ws_refuted"
   ],
   "note": "Proved for any output variables with WS and WD from files. REFUTED for a fixed WD (always IndexError) and a fixed WS (always KeyError)."
  },
  {
   "property": "C149",
   "status": "partial",
   "theorems": [
    "C149_load_modes",
    "C149_missing_states",
    "C149_selection_refuted"
   ],
   "note": "Proved for all files and chunks without selection of states. REFUTED with isel of states: load mode fly ignores it."
  },
  {
   "property": "C150",
   "status": "partial",
   "theorems": [
    "C150_numbers_kept",
    "C150_no_nan",
    "C150_chunks_partial",
    "C150_chunks_refuted"
   ],
   "note": "Numbers are kept, no NaN left, and the result is independent of the chunk if a state's first and last values are numbers. REFUTED otherwise: interpolation runs across states."
  },
  {
   "property": "C151",
   "status": "partial",
   "theorems": [
    "C151_speed_bound",
    "C151_same_direction",
    "C151_rotation",
    "C151_direction_between",
    "C151_grid_weights",
    "C151_grid_weights_sum",
    "C151_own_state",
    "C151_nan_refuted"
   ],
   "note": "Proved for all weights and data; own-state property proved without NaN. REFUTED with NaN values in a neighbouring state of the chunk (zero weight times NaN)."
  },
  {
   "property": "C152",
   "status": "partial",
   "theorems": [
    "C152_linear",
    "C152_within",
    "C152_outside",
    "C152_descending_refuted",
    "C152_descending_data_refuted"
   ],
   "note": "Proved for ascending heights. REFUTED for descending order: always an error, or wrong data with bounds_error=False."
  },
  {
   "property": "C153",
   "status": "partial",
   "theorems": [
    "C153_variables",
    "C153_vectors",
    "C153_fixed_speed_refuted",
    "C153_weight_refuted"
   ],
   "note": "Proved for other variables and for profiles. REFUTED: a fixed or height-independent wind speed is reduced if the wind direction depends on height (exact formula); the weight as an output variable is an error."
  },
  {
   "property": "C154",
   "status": "partial",
   "theorems": [
    "C154_power",
    "C154_thrust_refuted",
    "C154_uncorrected_partial",
    "C154_yawed_refuted",
    "C154_cube_law",
    "C154_square_law",
    "C154_nominal_refuted",
    "C154_nominal_partial"
   ],
   "note": "Power proved. REFUTED for the thrust coefficient: both lookups write into the same array, so that it is always taken at the wind speed for power; with other names of the power column the nominal power is a KeyError."
  },
  {
   "property": "C155",
   "status": "partial",
   "theorems": [
    "C155_n_full_grid",
    "C155_n_axes",
    "C155_n_nodes",
    "C155_n_within",
    "C155_n_outside",
    "C155_n_affine",
    "C155_n_row_order",
    "C155_n_one_input_refuted",
    "C155_full_grid",
    "C155_nodes",
    "C155_within",
    "C155_outside",
    "C155_row_order",
    "C155_one_input_refuted"
   ],
   "note": "Proved for tables with any number n >= 2 of input variables (C155_n_*; the earlier two-input theorems are kept). C155_n_affine: affine outputs are reproduced exactly. REFUTED for one input variable: loading always fails (pandas index without levshape). Axes with one value only are outside of C155_n_nodes/within."
  },
  {
   "property": "C156",
   "status": "partial",
   "theorems": [
    "C156_window",
    "C156_covered_partial",
    "C156_upper_refuted",
    "C156_lower_refuted"
   ],
   "note": "Exact selection proved for farms inside the data; all turbines are covered if the extra space is at least the resolution. REFUTED otherwise: the last grid line before the upper bound is the end; an extra space beyond the lower data bound by one cell selects nothing."
  },
  {
   "property": "C157",
   "status": "partial",
   "theorems": [
    "C157_states",
    "C157_nonneg",
    "C157_density",
    "C157_percent_refuted",
    "C157_bin_refuted"
   ],
   "note": "States and non-negativity proved. REFUTED: frequencies of files in units of 0.1 percent are read as percent, weights are 100 times too large; bin weights are density times width at the centre, not the probability."
  },
  {
   "property": "C158",
   "status": "partial",
   "theorems": [
    "C158_covers",
    "C158_image",
    "C158_points",
    "C158_short_refuted"
   ],
   "note": "REFUTED for given ranges shorter than half the resolution (one point at the lower bound only, C158_short_refuted); proved otherwise. Selection of states enters as the list of positions."
  },
  {
   "property": "C159",
   "status": "partial",
   "theorems": [
    "C159_axes",
    "C159_points_xz",
    "C159_points_yz",
    "C159_isometric",
    "C159_covers",
    "C159_default",
    "C159_y_refuted"
   ],
   "note": "REFUTED for the meaning of argument y (C159_y_refuted: for x_direction=90 the plane has y coordinate minus y); geometry, coverage and isometry proved."
  },
  {
   "property": "C160",
   "status": "partial",
   "theorems": [
    "C160_formats",
    "C160_states",
    "C160_pandas_refuted"
   ],
   "note": "REFUTED for states' data with format pandas (always ValueError, C160_pandas_refuted; pandas' requirement of 1D columns is in the model); proved for all other formats."
  },
  {
   "property": "C161",
   "status": "partial",
   "theorems": [
    "C161_mean",
    "C161_selection",
    "C161_selection_refuted",
    "C161_direction_refuted",
    "C161_between",
    "C161_point_weights"
   ],
   "note": "REFUTED for a selection of states (weights are not normalised: C161_selection, C161_selection_refuted) and for wind directions (C161_direction_refuted); proved for all states with weights of sum one."
  },
  {
   "property": "C162",
   "status": "partial",
   "theorems": [
    "C162_default_refuted",
    "C162_states_refuted",
    "C162_chosen_partial"
   ],
   "note": "REFUTED: the default variables=None always fails for weights without point dimension (C162_default_refuted, C162_states_refuted); proved for chosen variables."
  },
  {
   "property": "C163",
   "status": "partial",
   "theorems": [
    "C163_limits",
    "C163_inside",
    "C163_picture",
    "C163_ret_data_refuted",
    "C163_ret_data_partial",
    "C163_rotors_partial",
    "C163_rotors_refuted"
   ],
   "note": "REFUTED: ret_data=True returns the first element of a set's data (C163_ret_data_refuted), rotors of other states are drawn with states_sel/states_isel (C163_rotors_refuted); limits and pictures proved."
  },
  {
   "property": "C164",
   "status": "partial",
   "theorems": [
    "C164_centres",
    "C164_one_sector",
    "C164_frequency",
    "C164_total",
    "C164_negative_refuted",
    "C164_bars",
    "C164_compass"
   ],
   "note": "REFUTED for directions given as negative angles below half a sector (not counted at all, C164_negative_refuted); proved for directions from 0 to 360. numpy.histogram2d's binning rule is in the model."
  },
  {
   "property": "C165",
   "status": "proved",
   "theorems": [
    "C165_mean",
    "C165_empty",
    "C165_no_weights",
    "C165_total",
    "C165_defined"
   ],
   "note": "Also for weights of sum below 1e-13 there is no value (C165_empty), as in the code. in_bin is characterised by C164_frequency."
  },
  {
   "property": "C166",
   "status": "proved",
   "theorems": [
    "C166_right",
    "C166_list",
    "C166_all"
   ],
   "note": "Proved for the model of ResultsWriter on farm results (cells opaque; formatting of numbers into text not modelled)."
  },
  {
   "property": "C167",
   "status": "partial",
   "theorems": [
    "C167_names_partial",
    "C167_names_refuted",
    "C167_all"
   ],
   "note": "REFUTED for lists of variables: C167_names_refuted shows that every list without the name column fails (KeyError in set_index); C167_names_partial gives the exact condition; C167_all: all variables work."
  },
  {
   "property": "C168",
   "status": "partial",
   "theorems": [
    "C168_unchanged_partial",
    "C168_all",
    "C168_names_refuted",
    "C168_table_refuted"
   ],
   "note": "REFUTED: writing everything works on the writer's data in place. After turbine_names=True lists by index fail (C168_names_refuted); after a refused table no list can be written and 'all' has an extra column (C168_table_refuted). C168_unchanged_partial, C168_all: the calls that leave the writer as it is."
  },
  {
   "property": "C169",
   "status": "partial",
   "theorems": [
    "C169_table",
    "C169_names_refuted"
   ],
   "note": "Proved for turbine indices (C169_table); REFUTED for turbine names (C169_names_refuted: never written)."
  },
  {
   "property": "C170",
   "status": "partial",
   "theorems": [
    "C170_rename",
    "C170_state_refuted",
    "C170_dict_refuted"
   ],
   "note": "Proved for the columns (C170_rename); REFUTED for index names (C170_state_refuted: never written) and for repeated use of the dict (C170_dict_refuted)."
  },
  {
   "property": "C171",
   "status": "partial",
   "theorems": [
    "C171_nc_partial",
    "C171_duplicates_refuted",
    "C171_names_partial"
   ],
   "note": "Proved for different labels (C171_nc_partial); REFUTED for repeated labels (C171_duplicates_refuted); turbine names only if there is a state with label 0 (C171_names_partial)."
  },
  {
   "property": "C172",
   "status": "partial",
   "theorems": [
    "C172_history_partial",
    "C172_leak_refuted",
    "C172_read",
    "C172_csv",
    "C172_formats_refuted"
   ],
   "note": "REFUTED: parameters of earlier calls stay (C172_leak_refuted; exactly: C172_history_partial); names with two dots are refused, netCDF never works and h5 needs a key (C172_formats_refuted), since the loop over the formats always ends in its first round. C172_csv, C172_read: what holds."
  },
  {
   "property": "C173",
   "status": "proved",
   "theorems": [
    "C173_run",
    "C173_flag",
    "C173_incomplete"
   ],
   "note": ""
  },
  {
   "property": "C174",
   "status": "partial",
   "theorems": [
    "C174_repeat_partial",
    "C174_layouts_refuted",
    "C174_flag_refuted",
    "C174_points_refuted",
    "C174_override_refuted"
   ],
   "note": "REFUTED: run_dict pops the layouts, the run flags and the points from the caller's dictionary and writes overrides into it. C174_layouts_refuted: the second call raises KeyError if the dictionary describes its farm; C174_flag_refuted: calc_farm.run=False is respected by the first call only; C174_points_refuted: with calc_points the second call always fails; C174_override_refuted: algorithm parameters of the first call persist. C174_repeat_partial: the cases in which the second call does repeat the first."
  },
  {
   "property": "C175",
   "status": "partial",
   "theorems": [
    "C175_return_partial",
    "C175_raise",
    "C175_blocked",
    "C175_refuted"
   ],
   "note": "REFUTED for exceptions: C175_raise characterises exactly when the engine stays registered, C175_blocked shows that no later run with an engine can then succeed; proved for all returning runs (C175_return_partial)."
  },
  {
   "property": "C176",
   "status": "partial",
   "theorems": [
    "C176_arguments_partial",
    "C176_stored_partial",
    "C176_unknown",
    "C176_empty_refuted",
    "C176_close_refuted",
    "C176_return_refuted"
   ],
   "note": "Arguments and stores proved for all histories (C176_arguments_partial, C176_stored_partial, C176_unknown). REFUTED parts: empty string arguments raise IndexError, plt_close stores None, the labels are returned in any case (precedence of the conditional expression)."
  },
  {
   "property": "C177",
   "status": "partial",
   "theorems": [
    "C177_resolve",
    "C177_history",
    "C177_sticky_refuted"
   ],
   "note": "Resolution proved (C177_resolve); exact history dependence of the directories in C177_history; REFUTED independence of earlier runs (C177_sticky_refuted)."
  },
  {
   "property": "C178",
   "status": "partial",
   "theorems": [
    "C178_reload_partial",
    "C178_doubled",
    "C178_refuted"
   ],
   "note": "REFUTED for relative file names with a relative input directory other than '.', as used by foxes_yaml: load_data overwrites the data source by the resolved path, so that each initialisation prepends the input directory again (C178_doubled). C178_reload_partial: all other cases."
  },
  {
   "property": "C179",
   "status": "partial",
   "theorems": [
    "C179_series_partial",
    "C179_constant_partial",
    "C179_defaults",
    "C179_ti_refuted",
    "C179_names"
   ],
   "note": "REFUTED for a constant turbulence_intensity: fix.update(fixval) (read_site.py:102) overwrites it by 0.05 (C179_ti_refuted). Proved for variables over time and all other constants, and the defaults."
  },
  {
   "property": "C180",
   "status": "partial",
   "theorems": [
    "C180_accepted",
    "C180_single_refuted"
   ],
   "note": "REFUTED: _get_SingleStateStates (read_site.py:50-52) loops over the names of the coordinates, so that no single condition is ever accepted; wind roses are not supported either. Proved: exactly what is accepted must have."
  },
  {
   "property": "C181",
   "status": "partial",
   "theorems": [
    "C181_heights_partial",
    "C181_constant_partial",
    "C181_time_only_refuted"
   ],
   "note": "REFUTED for data over time only (silently dropped, TI falls back to 0.05) and for a constant TI; proved for both orientations of (time, height) data and for all other constants."
  },
  {
   "property": "C182",
   "status": "partial",
   "theorems": [
    "C182_turbines_partial",
    "C182_complete_partial",
    "C182_single_refuted",
    "C182_integer_refuted",
    "C182_short_map"
   ],
   "note": "REFUTED for integer keys of turbine_types, the form of the windIO examples (foxes Dict takes string keys only: TypeError), and for lists x, y of different length (surplus is dropped by zip). Proved for all farms that are read, and completeness for string keys."
  },
  {
   "property": "C183",
   "status": "proved",
   "theorems": [
    "C183_expansion",
    "C183_turbulence"
   ],
   "note": "Growth through the constructor and call of WakeK (WakeK_Model)."
  },
  {
   "property": "C184",
   "status": "proved",
   "theorems": [
    "C184_grid",
    "C184_reversed"
   ],
   "note": "Ideal real arithmetic; bounds in the wrong order give two points (C184_reversed)."
  },
  {
   "property": "C185",
   "status": "partial",
   "theorems": [
    "C185_options_refuted",
    "C185_odir_refuted"
   ],
   "note": "REFUTED: run_dict ignores these options since the algorithm is passed; -o raises AttributeError (args.odir)."
  },
  {
   "property": "C186",
   "status": "proved",
   "theorems": [
    "C186_blocks",
    "C186_results"
   ],
   "note": ""
  },
  {
   "property": "C187",
   "status": "partial",
   "theorems": [
    "C187_own_data_partial",
    "C187_shared_names_refuted"
   ],
   "note": "REFUTED where a name occurs in several data sets with different values: variables are found by name in the list of all data sets' variables (dask.py:216-217), so the first data set's value is used (C187_shared_names_refuted). True if shared names mean the same (C187_own_data_partial)."
  },
  {
   "property": "C188",
   "status": "partial",
   "theorems": [
    "C188_config_partial",
    "C188_active",
    "C188_shared_default_refuted"
   ],
   "note": "REFUTED: the default dask_config={} is one object shared by all engines, and cluster engines write into it (dask.py:59, 812-813), so after a LocalClusterEngine() every dask engine with default arguments runs with the distributed scheduler. C188_config_partial is exact for all histories."
  },
  {
   "property": "C189",
   "status": "partial",
   "theorems": [
    "C189_map_partial",
    "C189_single",
    "C189_float_refuted",
    "C189_string_refuted",
    "C189_tuple_refuted",
    "C189_ragged_refuted"
   ],
   "note": "REFUTED: np.array_split converts the inputs (pool.py:124, dask.py:136): ints among floats become floats, numbers among strings become strings, tuples become arrays, ragged tuples raise. True for inputs of one kind (C189_map_partial)."
  },
  {
   "property": "C190",
   "status": "partial",
   "theorems": [
    "C190_pools_partial",
    "C190_nothing_left_partial",
    "C190_rejected_refuted",
    "C190_leak_refuted"
   ],
   "note": "REFUTED where calls fail: __enter__ starts the pool before the checks (pool.py:83-85), so a rejected engine has a running pool, and entering twice loses the first pool, which no later call shuts down. True as long as no call raises."
  },
  {
   "property": "C191",
   "status": "partial",
   "theorems": [
    "C191_rows_partial",
    "C191_accepted_partial",
    "C191_duplicates_refuted",
    "C191_ids_refuted",
    "C191_empty_refuted"
   ],
   "note": "REFUTED in parts: labels that occur twice (concatenated tables) are an error, turbine_ids is read at row labels instead of row numbers (from_csv.py:94), and empty cells of height and diameter columns give NaN instead of the type's value. Otherwise proved for all tables with distinct labels."
  },
  {
   "property": "C192",
   "status": "partial",
   "theorems": [
    "C192_read_back_partial",
    "C192_unset_refuted"
   ],
   "note": "REFUTED where turbines take height or diameter from their type: these come back as NaN (farm_layout.py:98, 372-373); the turbines' numbers are replaced by row numbers. Otherwise names (as far as pandas keeps them, parameter text), positions and heights up to 5e-5, and diameters come back."
  },
  {
   "property": "C193",
   "status": "partial",
   "theorems": [
    "C193_read_back_partial",
    "C193_heights_refuted",
    "C193_names_refuted",
    "C193_file"
   ],
   "note": "REFUTED for heights and diameters, which are not written (farm_layout.py:119-124), and for turbines of the same name, which are merged. Names, numbers and positions are kept exactly if names are distinct."
  },
  {
   "property": "C194",
   "status": "partial",
   "theorems": [
    "C194_layout",
    "C194_seed_partial",
    "C194_seed_zero_refuted"
   ],
   "note": "REFUTED for seed 0, which is ignored (random_xy.py:41: 'if seed:'). Number, distances and centre proved for all random numbers whenever the loop ends."
  },
  {
   "property": "C195",
   "status": "partial",
   "theorems": [
    "C195_file",
    "C195_unrounded",
    "C195_given_digits",
    "C195_digits",
    "C195_changed_refuted",
    "C195_table_refuted",
    "C195_dimension_refuted"
   ],
   "note": "REFUTED: the rounding is done in place on the caller's data set (xarray_utils.py:39, 45), so tables that are also written to a file have rounded values; and a dimension coordinate with digits is an error. The contents of the file are proved."
  },
  {
   "property": "C196",
   "status": "partial",
   "theorems": [
    "C196_points_partial",
    "C196_selection_refuted",
    "C196_mean_refuted",
    "C196_file_partial",
    "C196_file_refuted"
   ],
   "note": "REFUTED: states_mean never works (arrays without dimension names, calc_points.py:105-110), to_file without write_vars fails for weights per state, and states selections fail with points of shape (n_points, 3) (91-94). Otherwise proved."
  },
  {
   "property": "C197",
   "status": "partial",
   "theorems": [
    "C197_round_trip_partial",
    "C197_no_parts_refuted",
    "C197_words_refuted",
    "C197_dots"
   ],
   "note": "REFUTED: names without a dash or underscore raise UnboundLocalError, parts that are words beginning with D or H raise ValueError. Round trip proved for all names of a base and at least one part."
  },
  {
   "property": "C198",
   "status": "partial",
   "theorems": [
    "C198_agree",
    "C198_accepts",
    "C198_symmetric",
    "C198_different_turbines_refuted"
   ],
   "note": "REFUTED: files of different turbines are accepted as soon as their names begin with the same letter and the stated values agree. Exact characterisation of the result, completeness and symmetry proved."
  },
  {
   "property": "C199",
   "status": "partial",
   "theorems": [
    "C199_one_file_partial",
    "C199_cp_file_partial",
    "C199_two_files_refuted",
    "C199_mixed_refuted",
    "C199_tbl_refuted",
    "C199_tbl_partial"
   ],
   "note": "REFUTED: parameters are ignored with two files, and rejected for tbl files; a file together with a data frame always fails. Proved for PCtFile and CpCtFile."
  },
  {
   "property": "C200",
   "status": "partial",
   "theorems": [
    "C200_one_file_refuted",
    "C200_never_thrust_refuted",
    "C200_two_tables_partial",
    "C200_short_refuted",
    "C200_table",
    "C200_two_files_use"
   ],
   "note": "REFUTED: CpCtFile can never be used (its table has no thrust column); tables of less than 0.1 mm/s give no curve. Error bound proved for CpCtFromTwo."
  },
  {
   "property": "C201",
   "status": "partial",
   "theorems": [
    "C201_default_unit_partial",
    "C201_unit_refuted"
   ],
   "note": "REFUTED: with P_unit other than kW the number in kW is taken for that unit. Proved without P_unit."
  },
  {
   "property": "C202",
   "status": "proved",
   "theorems": [
    "C202_lookup",
    "C202_rejected",
    "C202_grid",
    "C202_grid_raw",
    "C202_not_square",
    "C202_level",
    "C202_partial_wakes"
   ],
   "note": ""
  },
  {
   "property": "C203",
   "status": "proved",
   "theorems": [
    "C203_time",
    "C203_length",
    "C203_step",
    "C203_unit"
   ],
   "note": ""
  },
  {
   "property": "C204",
   "status": "partial",
   "theorems": [
    "C204_one",
    "C204_two",
    "C204_ambient",
    "C204_decimal_refuted"
   ],
   "note": "Proved for numbers with a leading zero for '0.' (02 is 0.2) and numbers of at least one. REFUTED for decimal numbers below one, as in the printed example kTI_0.2: KeyError, although the name is contained in the book."
  },
  {
   "property": "C205",
   "status": "proved",
   "theorems": [
    "C205_any_admissible_order",
    "C205_ties"
   ],
   "note": "states independent of each other; wake models read the farm data of the causing turbine only; exact arithmetic (contributions commute up to rounding in the code); no upwind models"
  },
  {
   "property": "C206",
   "status": "proved",
   "theorems": [
    "C206_renumbering_with_ties"
   ],
   "note": "states independent of each other; wake models read the farm data of the causing turbine only; exact arithmetic (contributions commute up to rounding in the code); no upwind models"
  },
  {
   "property": "C207",
   "status": "proved",
   "theorems": [
    "C207_farm_order_frame",
    "C207_listing_matters"
   ],
   "note": "states independent of each other; wake models read the farm data of the causing turbine only; exact arithmetic (contributions commute up to rounding in the code); no upwind models"
  },
  {
   "property": "C208",
   "status": "proved",
   "theorems": [
    "C208_thrust",
    "C208_inverse"
   ],
   "note": "exact arithmetic; division by zero not modelled"
  },
  {
   "property": "C209",
   "status": "proved",
   "theorems": [
    "C209_values",
    "C209_smooth"
   ],
   "note": "exact arithmetic"
  },
  {
   "property": "C210",
   "status": "proved",
   "theorems": [
    "C210_curve",
    "C210_row_order",
    "C210_rows",
    "C210_outside"
   ],
   "note": "scipy's interp1d with default parameters is in the model; equal heights not covered"
  },
  {
   "property": "C211",
   "status": "proved",
   "theorems": [
    "C211_hub_data"
   ],
   "note": "one state, one variable, centre partial wakes, no upwind models; a variable that the states do not provide is a KeyError in the code and not modelled"
  },
  {
   "property": "C212",
   "status": "partial",
   "theorems": [
    "C212_one_chunk_partial",
    "C212_chunks_refuted"
   ],
   "note": "REFUTED for several chunks: the mask has algo.n_states rows, the arrays those of the chunk: IndexError in every chunk. True for one chunk."
  },
  {
   "property": "C213",
   "status": "proved",
   "theorems": [
    "C213_ranges",
    "C213_mol",
    "C213_weights"
   ],
   "note": "numpy generator arbitrary (state, values in [0,1)); exact real arithmetic."
  },
  {
   "property": "C214",
   "status": "partial",
   "theorems": [
    "C214_digits_refuted",
    "C214_always_auto_refuted",
    "C214_written_partial"
   ],
   "note": "REFUTED: a given number of digits is ignored (C214_digits_refuted, C214_always_auto_refuted): the defaults are always used. C214_written_partial: what is written."
  },
  {
   "property": "C215",
   "status": "partial",
   "theorems": [
    "C215_ranges",
    "C215_seed_partial",
    "C215_seed_refuted"
   ],
   "note": "Ranges and seeds other than 0 proved; REFUTED for seed 0 (C215_seed_refuted), which is treated as no seed."
  },
  {
   "property": "C216",
   "status": "partial",
   "theorems": [
    "C216_plain",
    "C216_structure",
    "C216_value",
    "C216_statement_refuted",
    "C216_arguments_refuted",
    "C216_leak_refuted"
   ],
   "note": "C216_plain, C216_structure, C216_value hold. REFUTED: code without target is executed but the text stays (C216_statement_refuted); newline and locals are ignored inside of structures (C216_arguments_refuted); variables leak between calls through the mutable default argument (C216_leak_refuted)."
  },
  {
   "property": "C217",
   "status": "partial",
   "theorems": [
    "C217_lookup",
    "C217_cases",
    "C217_raw",
    "C217_toc",
    "C217_suffix",
    "C217_copy_refuted",
    "C217_dict_partial"
   ],
   "note": "Lookup, precedence, contents, suffixes proved for all histories. REFUTED: a book cannot be constructed from a book (C217_copy_refuted), only from a dictionary."
  },
  {
   "property": "C218",
   "status": "proved",
   "theorems": [
    "C218_moved",
    "C218_uniform",
    "C218_every_field"
   ],
   "note": "One state, centre rotor, any partial wakes points, turbines without yaw and without models that look at positions or directions; exact real arithmetic."
  },
  {
   "property": "C219",
   "status": "proved",
   "theorems": [
    "C219_mirrored"
   ],
   "note": "As C218; target points on the rotors' vertical axes."
  },
  {
   "property": "C220",
   "status": "partial",
   "theorems": [
    "C220_last_created_partial",
    "C220_created_in_between_refuted"
   ],
   "note": "REFUTED in general (C220_created_in_between_refuted: exchanged types give wrong diameters and heights silently, missing types raise KeyError). Proved if the last created algorithm has the same turbine types."
  },
  {
   "property": "C221",
   "status": "partial",
   "theorems": [
    "C221_agreeing_partial",
    "C221_first_decides",
    "C221_other_variables_refuted"
   ],
   "note": "REFUTED in general (C221_other_variables_refuted; C221_first_decides shows that the first calculation decides for all later ones). Proved for histories of algorithms with the same types and state variables."
  },
  {
   "property": "C222",
   "status": "partial",
   "theorems": [
    "C222_own_parameters",
    "C222_order",
    "C222_controller_parameters_refuted"
   ],
   "note": "Proved if no parameters are given for the farm controller; REFUTED otherwise (pre-rotor turbine models never run)."
  },
  {
   "property": "C223",
   "status": "proved",
   "theorems": [
    "C223_reflected",
    "C223_symmetric_farm"
   ],
   "note": ""
  },
  {
   "property": "C224",
   "status": "partial",
   "theorems": [
    "C224_area",
    "C224_union_partial",
    "C224_island_refuted"
   ],
   "note": "REFUTED for polygons that lie in a hole of another polygon (C224_island_refuted). Proved otherwise, C224_area is the exact rule."
  },
  {
   "property": "C225",
   "status": "partial",
   "theorems": [
    "C225_names",
    "C225_rows_refuted"
   ],
   "note": "The rule for missing names is proved; REFUTED that all polygons are used (C225_rows_refuted: equal names, missing names)."
  },
  {
   "property": "C226",
   "status": "partial",
   "theorems": [
    "C226_options",
    "C226_engine",
    "C226_engine_section_refuted"
   ],
   "note": "Algorithm options proved (C226_options), engine exactly C226_engine. REFUTED: any engine option (e.g. -n 4) drops the whole engine section of the file (C226_engine_section_refuted)."
  },
  {
   "property": "C227",
   "status": "partial",
   "theorems": [
    "C227_facing_partial",
    "C227_one_point",
    "C227_offset_partial",
    "C227_own_coordinates_refuted",
    "C227_neighbour_refuted"
   ],
   "note": "Proved if the rotor faces the wind at the source (C227_facing_partial) or has one point (C227_one_point); in general the exact error of the downwind coordinate and its bound (C227_offset_partial). REFUTED in general: the downwind coordinate is that of the rotor's first point (C227_own_coordinates_refuted, C227_neighbour_refuted)."
  },
  {
   "property": "C228",
   "status": "partial",
   "theorems": [
    "C228_own_superposition",
    "C228_missing",
    "C228_partly_written_refuted",
    "C228_finalized"
   ],
   "note": "Own superposition, finalization and KeyError proved. REFUTED: on a KeyError the variables before the missing one have been changed (C228_partly_written_refuted)."
  },
  {
   "property": "C229",
   "status": "partial",
   "theorems": [
    "C229_never_runs_refuted",
    "C229_type_error_refuted",
    "C229_unused",
    "C229_places",
    "C229_set",
    "C229_rejected"
   ],
   "note": "Collection of parameters, placement of the models and the unused case proved. REFUTED: whenever a variable is under-relaxed the first iteration raises a TypeError, for all data and models (C229_never_runs_refuted, C229_type_error_refuted)."
  },
  {
   "property": "C230",
   "status": "partial",
   "theorems": [
    "C230_downwind",
    "C230_iterative",
    "C230_farm",
    "C230_superpositions",
    "C230_points",
    "C230_inhomogeneous_refuted"
   ],
   "note": "Proved for Downwind (downwind and upwind wake models), any number of sweeps of Iterative, the farm's own order (distinct along-wind coordinates, homogeneous wind direction), points, and all superpositions but the product. REFUTED in inhomogeneous wind: the wind direction at such turbines changes the order of calculation (C230_inhomogeneous_refuted)."
  },
  {
   "property": "C231",
   "status": "partial",
   "theorems": [
    "C231_enlarged",
    "C231_deficits_partial",
    "C231_turbulence_partial",
    "C231_bastankhah16_partial",
    "C231_rankine_partial",
    "C231_induction",
    "C231_near_rotor_refuted",
    "C231_vortex_sheet_partial",
    "C231_vortex_sheet_refuted"
   ],
   "note": "Farm level proved for scale free models (C231_enlarged); Jensen, Bastankhah14, Bastankhah16 (deficit and deflection), TurbOPark, IEC, Crespo-Hernandez outside of the first 1e-8 m behind rotors, self similar and Rathmann induction everywhere, Rankine outside of the half bodies. REFUTED within 1e-8 m (C231_near_rotor_refuted) and for the vortex sheet, which rounds distances in meters (C231_vortex_sheet_refuted)."
  },
  {
   "property": "C232",
   "status": "partial",
   "theorems": [
    "C232_range",
    "C232_accuracy",
    "C232_nonneg",
    "C232_period",
    "C232_full_turn_refuted"
   ],
   "note": "Proved for all floats: result in [0, 360], error at most 2^-45 degrees, exact and below 360 for non-negative arguments, exact remainder. REFUTED for the half-open interval: for negative directions with a remainder of at most 2^-45 degrees below a full turn the result is 360 itself (characterised by an equivalence)."
  },
  {
   "property": "C233",
   "status": "partial",
   "theorems": [
    "C233_bounds",
    "C233_sectors_partial",
    "C233_centres",
    "C233_number_refuted"
   ],
   "note": "Proved: n + 1 bounds for every n up to 2^40; n centres for n <= 160 and whenever 360/n is a float (divisors of 360), centres within 2^-42 degrees. REFUTED: 161 sectors give 162 centres, so that get_data, read_tab_file and WRGStates raise ValueError; in general n or n + 1."
  },
  {
   "property": "C234",
   "status": "partial",
   "theorems": [
    "C234_grid",
    "C234_fraction_refuted"
   ],
   "note": "Proved for integer step sizes: exact nodes, coverage of the largest distance. REFUTED for other steps: dx = 12.6 with targets up to 1580 m raises ValueError (np.arange returns one node too many)."
  },
  {
   "property": "C235",
   "status": "partial",
   "theorems": [
    "C235_lower",
    "C235_upper",
    "C235_both",
    "C235_unwaked",
    "C235_exact_limit_refuted"
   ],
   "note": "Proved: limits hold up to a relative error of 2^-31 (ambient at most 2^20 times the limit), positivity, unwaked values unchanged bit by bit. REFUTED for the exact limit: lim_low = 1e-4 and ambient 8 m/s give a value below 1e-4."
  },
  {
   "property": "C236",
   "status": "partial",
   "theorems": [
    "C236_pictures",
    "C236_complete",
    "C236_none",
    "C236_gap_refuted",
    "C236_empty_refuted",
    "C236_again_refuted",
    "C236_figure"
   ],
   "note": "Proved: pictures up to the first without artists; complete if every yield has artists; foreign figure is ValueError. REFUTED: a picture without artists ends the animation; generators without yields, and a second call of animate, raise UnboundLocalError."
  },
  {
   "property": "C237",
   "status": "partial",
   "theorems": [
    "C237_data",
    "C237_fixed_title",
    "C237_title_refuted",
    "C237_orientation_refuted"
   ],
   "note": "Proved for orientation xy: one picture per state in order; fixed titles. REFUTED: a title function gives all pictures the title of the last state; orientations xz, yz fail (gen_images always calls gen_states_fig_xy)."
  },
  {
   "property": "C238",
   "status": "partial",
   "theorems": [
    "C238_values",
    "C238_normalize_refuted",
    "C238_names_refuted",
    "C238_variables_refuted",
    "C238_file_refuted",
    "C238_grid_refuted"
   ],
   "note": "Proved: values and coordinates of the stack for unmapped names of the third axis and of states. REFUTED: the third axis is not normalised; mapped names of that axis or of the states raise; variable names are not mapped in means; the file has the last slice only; ret_grid returns normalised axes with a position and points that are not."
  },
  {
   "property": "C239",
   "status": "partial",
   "theorems": [
    "C239_rotor_xy",
    "C239_rotor_vertical",
    "C239_direction_refuted",
    "C239_labels_refuted",
    "C239_arrow_xy",
    "C239_arrow_refuted",
    "C239_arrow_up_refuted",
    "C239_pixel",
    "C239_figure_refuted",
    "C239_mean_label_refuted"
   ],
   "note": "Proved for horizontal pictures and for vertical pictures of the default direction. Refuted: vertical pictures of other directions place rotors and arrows wrongly; custom labels with rotor drawing raise UnboundLocalError; without colour bar and given figure nothing is returned; mean yz pictures are labelled x."
  },
  {
   "property": "C240",
   "status": "partial",
   "theorems": [
    "C240_speeds",
    "C240_last",
    "C240_beyond_refuted",
    "C240_lines",
    "C240_axes_refuted",
    "C240_returned",
    "C240_book",
    "C240_book_refuted"
   ],
   "note": "Proved for a list of axes and ranges that are multiples of the step. Refuted: other ranges are exceeded; two variables without axes raise IndexError; created axes are not returned; a failing run with power mask leaves the temporary model in the model book."
  },
  {
   "property": "C241",
   "status": "partial",
   "theorems": [
    "C241_cell",
    "C241_last_cell",
    "C241_single_refuted",
    "C241_turbine_labels",
    "C241_state_labels_refuted"
   ],
   "note": "Cells and turbine labels proved. Refuted: a single state fails; state labels are moved by half of the tick distance instead of half of the cell."
  },
  {
   "property": "C242",
   "status": "partial",
   "theorems": [
    "C242_labels",
    "C242_apart",
    "C242_shown",
    "C242_overlap_refuted"
   ],
   "note": "Numbers, values and distances proved. Refuted: the first label may overlap the next one shown."
  },
  {
   "property": "C243",
   "status": "proved",
   "theorems": [
    "C243_downwind",
    "C243_iterative",
    "C243_farm",
    "C243_two_farms",
    "C243_superpositions",
    "C243_jensen"
   ],
   "note": "For wake models without contribution from one group to the other; instance: Jensen wakes at a lateral distance. In inhomogeneous wind the order of calculation may change (C230_inhomogeneous_refuted); the product superposition is not neutral (C27)."
  },
  {
   "property": "C244",
   "status": "proved",
   "theorems": [
    "C244_sum_order",
    "C244_accuracy",
    "C244_one_sign",
    "C244_max_order",
    "C244_outside",
    "C244_two",
    "C244_exact_refuted",
    "C244_wind_speed",
    "C244_quadratic"
   ],
   "note": "All parts proved for all lists of floats; agreement bit by bit fails for three wakes (C244_exact_refuted), as the statement says."
  },
  {
   "property": "C245",
   "status": "proved",
   "theorems": [
    "C245_superpositions",
    "C245_product",
    "C245_farm",
    "C245_iterative",
    "C245_points",
    "C245_jensen",
    "C245_fixed_limit_refuted"
   ],
   "note": "Proved for one wind speed variable, centre rotor; product superposition at each place (farm level for the others)."
  },
  {
   "property": "C246",
   "status": "proved",
   "theorems": [
    "C246_accepted_result_accuracy",
    "C246_one_solution",
    "C246_error_of_iteration",
    "C246_loop_accepts",
    "C246_number_of_iterations",
    "C246_weak_coupling_contracts",
    "C246_weakly_coupled_farm",
    "C246_limit_is_not_accuracy_refuted",
    "C246_accepted_without_solution_refuted"
   ],
   "note": "Wind speeds only (turbulence intensity fixed); product superposition and under-relaxation not covered by the sufficient condition. The two _refuted theorems show what the limit alone does not give."
  },
  {
   "property": "C247",
   "status": "proved",
   "theorems": [
    "C247_error_propagation",
    "C247_farm_bound",
    "C247_coupled_farms",
    "C247_cut_in_refuted"
   ],
   "note": "One wind speed wake model (with its superposition); local and product superpositions not covered; the last theorem shows that the bound on the sensitivity is needed."
  },
  {
   "property": "C248",
   "status": "partial",
   "theorems": [
    "C248_all_subclasses",
    "C248_base_is_not_its_subclass",
    "C248_selected",
    "C248_no_name",
    "C248_one_name",
    "C248_later_classes",
    "C248_same_name_refuted",
    "C248_engine_names"
   ],
   "note": "Refuted: two classes of the same name below one base make the selection depend on the order of a set."
  },
  {
   "property": "C249",
   "status": "partial",
   "theorems": [
    "C249_colours",
    "C249_sizes",
    "C249_shows_all",
    "C249_shows_hole",
    "C249_dictionary_kept_refuted",
    "C249_repeated_call_refuted",
    "C249_corners_kept_refuted",
    "C249_half_plane_refuted",
    "C249_integers_refuted",
    "C249_errors"
   ],
   "note": "Colours, sizes and windows proved for all areas of C41. REFUTED (code bugs, proved as such): the dictionary is emptied and given corners are widened in place; half planes need a given lower corner, integer corners raise TypeError. Boundary lines and colour bars are not modelled."
  },
  {
   "property": "C250",
   "status": "proved",
   "theorems": [
    "C250_only_balanced_results",
    "C250_wind_speeds",
    "C250_undisturbed",
    "C250_power"
   ],
   "note": "All parts proved over the reals; not yawed, no turbulence model, wake growth k given per turbine, centre rotor and centre partial wakes, one wind deficit model."
  },
  {
   "property": "C251",
   "status": "proved",
   "theorems": [
    "C251_yields",
    "C251_same_yields",
    "C251_losses"
   ],
   "note": "All parts proved over the reals; scope of models as in C250."
  },
  {
   "property": "C252",
   "status": "partial",
   "theorems": [
    "C252_iterative",
    "C252_downwind_partial",
    "C252_constant_growth_partial",
    "C252_bounds",
    "C252_downwind_refuted"
   ],
   "note": "Proved for the iterative algorithm (any order of the models). REFUTED for the downwind algorithm: with the wind deficit model listed first all wakes grow with the turbulence of the state (exact rule proved); proved for it if the growth does not depend on TI."
  },
  {
   "property": "C253",
   "status": "proved",
   "theorems": [
    "C253_flow",
    "C253_values",
    "C253_same_values"
   ],
   "note": ""
  },
  {
   "property": "C254",
   "status": "partial",
   "theorems": [
    "C254_less_wind_partial",
    "C254_less_power_partial",
    "C254_less_wind_refuted"
   ],
   "note": "Proved for deficits that refer to the ambient wind speed and thrust that does not fall with less wind; refuted by an explicit farm for the default scaling with the waked wind speed (C254_less_wind_refuted)."
  },
  {
   "property": "C255",
   "status": "proved",
   "theorems": [
    "C255_far_wake",
    "C255_growth_needed"
   ],
   "note": ""
  },
  {
   "property": "C256",
   "status": "proved",
   "theorems": [
    "C256_rule",
    "C256_monotone",
    "C256_same_points",
    "C256_same_farm"
   ],
   "note": ""
  },
  {
   "property": "C257",
   "status": "proved",
   "theorems": [
    "C257_only_balanced_results",
    "C257_wind_speeds",
    "C257_undisturbed",
    "C257_power",
    "C257_points",
    "C257_centre_rotor"
   ],
   "note": "Uniform wind, not yawed; limits as stated."
  },
  {
   "property": "C258",
   "status": "proved",
   "theorems": [
    "C258_only_balanced_results",
    "C258_bounds",
    "C258_points",
    "C258_one_plane_symmetric",
    "C258_no_planes",
    "C258_far_planes",
    "C258_planes_take_wind",
    "C258_two_planes_not_symmetric"
   ],
   "note": "Complete calculations with mirror planes; partial wakes other than centre with a ground model are C96."
  },
  {
   "property": "C259",
   "status": "partial",
   "theorems": [
    "C259_texts",
    "C259_paths_partial",
    "C259_paths_refuted",
    "C259_compressed_refuted",
    "C259_verbosity_refuted"
   ],
   "note": "Exact for texts (C259_texts); pathlib.Path arguments and data book files: refuted for compressed files; verbosity of the json reader refuted."
  },
  {
   "property": "C260",
   "status": "partial",
   "theorems": [
    "C260_balance_partial",
    "C260_aligned",
    "C260_bounds",
    "C260_same_wind_same_power_refuted",
    "C260_unwaked_as_alone_refuted",
    "C260_numbering_refuted"
   ],
   "note": "Balance, uniqueness, bounds and the aligned case proved; the first turbine of the processing order is evaluated without its yaw angle (refuted parts)."
  },
  {
   "property": "C261",
   "status": "partial",
   "theorems": [
    "C261_write_partial",
    "C261_write_refuted",
    "C261_text_error",
    "C261_error",
    "C261_exact",
    "C261_order",
    "C261_stable",
    "C261_default_digits"
   ],
   "note": "False part (refuted): PandasFileHelper.write_file adds the default formats by column name, so a column named like a default variable is rounded even if it holds another variable without a format."
  },
  {
   "property": "C262",
   "status": "partial",
   "theorems": [
    "C262_ti_first_partial",
    "C262_flat_thrust_partial",
    "C262_bounds",
    "C262_ti_first_refuted"
   ],
   "note": "Proved: existence and uniqueness of what is returned, its exact meaning, bounds, and the full balance for flat thrust. Refuted for thrust curves that fall with the wind speed."
  },
  {
   "property": "C263",
   "status": "partial",
   "theorems": [
    "C263_tke_refuted",
    "C263_tke_formula_refuted",
    "C263_ustar_partial",
    "C263_missing",
    "C263_uniform_refuted"
   ],
   "note": "ustar2ti as the last model of a list: proved (C263_ustar_partial, C263_missing). Refuted: tke2ti (C263_tke_refuted: AttributeError for FV.TKE; C263_tke_formula_refuted: factor 3/2) and SetUniformData (C263_uniform_refuted: its constructor does not call the one of the base class)."
  },
  {
   "property": "C264",
   "status": "partial",
   "theorems": [
    "C264_turbine_partial",
    "C264_flow_partial",
    "C264_empty_refuted",
    "C264_heights_refuted",
    "C264_names_refuted",
    "C264_cases_refuted",
    "C264_files"
   ],
   "note": "C264_turbine_partial and C264_flow_partial: accepted requests. Refuted: empty subset (C264_empty_refuted), several heights in the flow file (C264_heights_refuted), other names (C264_names_refuted), no cases_run (C264_cases_refuted)."
  },
  {
   "property": "C265",
   "status": "partial",
   "theorems": [
    "C265_balance_partial",
    "C265_region_ignored",
    "C265_numbering",
    "C265_side_by_side_refuted",
    "C265_behind_refuted"
   ],
   "note": "Proved for farms without two turbines at the same distance along the wind: balance with the region in front of the rotors, uniqueness, upper bound, independence of the numbering, for the self similar, self similar 2020 (thrust coefficients up to 1) and Rathmann models. Refuted: turbines side by side, and the region behind the rotors (pre_rotor_only=False), which is dropped for turbines."
  },
  {
   "property": "C266",
   "status": "partial",
   "theorems": [
    "C266_iterations_partial",
    "C266_settled",
    "C266_model_order",
    "C266_numbering",
    "C266_constant_thrust_partial",
    "C266_downwind_refuses",
    "C266_side_by_side",
    "C266_limit_refuted"
   ],
   "note": "Joint_*: Iterative with a wind deficit and a blockage model: the equation of every iteration, fixed points, order of models, numbering, side by side, settling for constant thrust. Refuted: the lower limit of the superpositions is applied to wakes and blockage one at a time (farm_wakes_calc.py:137-150 adds both), so the wind speed falls below the limit common to both. Missing: settling for thrust coefficients that depend on the wind speed."
  },
  {
   "property": "C267",
   "status": "partial",
   "theorems": [
    "C267_selected",
    "C267_other_variable",
    "C267_replaced_partial",
    "C267_limits",
    "C267_iterative",
    "C267_once_refuted"
   ],
   "note": "False for functions with no regard to st_sel whose output replaces their input, with the downwind algorithm (C267_once_refuted): the Calculator is called again for every turbine that is evaluated later and returns whole arrays that are written back, so that a factor 0.9 is applied n-k times at position k (C267_replaced_partial gives the exact number for all functions, turbines and wake models); the downwind and the iterative algorithm then differ. Proved in full for selective functions, for other output variables, for idempotent functions and for the iterative algorithm."
  }
 ]
}