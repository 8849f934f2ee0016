{
 "claims": [
  {
   "property": "C01",
   "status": "proved",
   "theorems": [
    "C01_brent_sound_total",
    "C01_brent_continuous_root",
    "C01_brent_nan_iff",
    "C01_brent_nan_bounds",
    "C01_brent_no_sign_change_f64_refuted"
   ],
   "note": "exact real arithmetic; the binary64 theorem is a finding: underflow of fa*fb defeats the sign-change guard"
  },
  {
   "property": "C02",
   "status": "proved",
   "theorems": [
    "C02_guess_to_bounds"
   ],
   "note": ""
  },
  {
   "property": "C03",
   "status": "proved",
   "theorems": [
    "C02_guess_to_bounds",
    "C03_nan_guess_diverges"
   ],
   "note": "13 passes bound is in C02; divergence for NaN guess is a finding"
  },
  {
   "property": "C04",
   "status": "proved",
   "theorems": [
    "C04_brent_guess"
   ],
   "note": ""
  },
  {
   "property": "C05",
   "status": "proved",
   "theorems": [
    "C05_root_within_tol_refuted"
   ],
   "note": "the documented bound is false (refutation); the bound that does hold is in C01/C04"
  },
  {
   "property": "C06",
   "status": "proved",
   "theorems": [
    "C06_valid_range_1",
    "C06_valid_range_1_two",
    "C06_valid_range_doc_refuted"
   ],
   "note": "any arithmetic; one docstring sentence refuted"
  },
  {
   "property": "C07",
   "status": "proved",
   "theorems": [
    "C07_pval_derivative",
    "C07_pval_finite"
   ],
   "note": ""
  },
  {
   "property": "C08",
   "status": "proved",
   "theorems": [
    "C08_ppval_1",
    "C08_ppval_1_two",
    "C08_ppinterp_1",
    "C08_ppinterp_1_two",
    "C08_cases",
    "C08_no_data",
    "C08_nonan"
   ],
   "note": ""
  },
  {
   "property": "C09",
   "status": "proved",
   "theorems": [
    "C09_linear_interp",
    "C13_linear_same"
   ],
   "note": ""
  },
  {
   "property": "C10",
   "status": "proved",
   "theorems": [
    "C10_pchip_c1"
   ],
   "note": "also pins the slopes to the textbook formula"
  },
  {
   "property": "C11",
   "status": "proved",
   "theorems": [
    "C11_pchip_shape",
    "C10_pchip_c1"
   ],
   "note": ""
  },
  {
   "property": "C12",
   "status": "proved",
   "theorems": [
    "C12_pchip_total",
    "C12_pchip_no_data"
   ],
   "note": "exact real arithmetic"
  },
  {
   "property": "C13",
   "status": "proved",
   "theorems": [
    "C13_linear_same",
    "C13_pchip_same_f64",
    "C13_pchip_same_xr",
    "C13_pchip_same_inf_refuted"
   ],
   "note": "bit-exact in binary64; counterexample with infinities"
  },
  {
   "property": "C14",
   "status": "proved",
   "theorems": [
    "C14_ppinterp_1_two",
    "C14_ppval_1_two"
   ],
   "note": ""
  },
  {
   "property": "C15",
   "status": "proved",
   "theorems": [
    "C15_make_pp"
   ],
   "note": ""
  },
  {
   "property": "C16",
   "status": "proved",
   "theorems": [
    "C16_diff",
    "C16_diff_empty_refuted"
   ],
   "note": ""
  },
  {
   "property": "C17",
   "status": "proved",
   "theorems": [
    "C17_bfs_component"
   ],
   "note": ""
  },
  {
   "property": "C18",
   "status": "proved",
   "theorems": [
    "C18_bfs_order"
   ],
   "note": ""
  },
  {
   "property": "C31",
   "status": "proved",
   "theorems": [
    "C31_wetting_search",
    "C31_wetting_total",
    "C31_one_ntp_per_cast_refuted"
   ],
   "note": "any arithmetic, any eos and interpolant; an exception can only be that of an NTP calculation; the docstring's 'at most one NTP calculation per dry cast' is refuted"
  },
  {
   "property": "C32",
   "status": "proved",
   "theorems": [
    "C32_perimeter_wetting",
    "C32_perimeter_total",
    "C32_below_mixed_layer_refuted",
    "C32_order_insensitive_refuted",
    "C32_no_further_links_refuted"
   ],
   "note": "any arithmetic; three documented claims are refuted by binary64 executions"
  },
  {
   "property": "C29",
   "status": "proved",
   "theorems": [
    "C29_ntp_link",
    "C29_neutral_point",
    "C29_short_cast",
    "C29_linear",
    "C29_pchip",
    "C29_nan_bottle_refuted"
   ],
   "note": "exact real arithmetic; a bottle with NaN pressure makes the bracket search loop forever"
  },
  {
   "property": "C30",
   "status": "proved",
   "theorems": [
    "C30_trajectory",
    "C30_total",
    "C30_land_start_refuted"
   ],
   "note": "first theorem over any arithmetic; totality in exact arithmetic; a land-locked first cast fails"
  },
  {
   "property": "C19",
   "status": "proved",
   "theorems": [
    "C19_edges_to_csr",
    "C19_total_degree",
    "C19_adjacency",
    "C19_no_edges"
   ],
   "note": ""
  },
  {
   "property": "C24",
   "status": "proved",
   "theorems": [
    "C24_symmetric",
    "C24_one_sided",
    "C24_matrix",
    "C24_f64_laws",
    "C24_symmetric_structure_refuted",
    "C24_same_structure_accepted_refuted"
   ],
   "note": "dense matrices, any arithmetic; for a dict of matrices with symmetric structure but unsymmetric values the claim is refuted (pair listed twice, or ValueError)"
  },
  {
   "property": "C25",
   "status": "proved",
   "theorems": [
    "C25_divergence",
    "C25_scalars",
    "C25_outflow",
    "C25_conserves",
    "C25_linear",
    "C25_isolated_last_node_refuted"
   ],
   "note": "node formula in any arithmetic, conservation and linearity over the reals; one area per node is rejected when the last node has no edge"
  },
  {
   "property": "C26",
   "status": "proved",
   "theorems": [
    "C26_find_first_nan",
    "C26_find_first_nan_doc_refuted",
    "C26_take_fill",
    "C26_aggsum",
    "C26_val_at",
    "C26_val_at_1d",
    "C26_val_at_int",
    "C26_val_at_negative",
    "C26_bottom",
    "C26_val_at_unchanged_refuted",
    "C26_val_at_singleton_refuted"
   ],
   "note": "any arithmetic, any rank; the parts of the claim that are false are refuted"
  },
  {
   "property": "C27",
   "status": "proved",
   "theorems": [
    "C27_process_casts",
    "C27_vert_dim_int",
    "C27_vert_dim_name",
    "C27_container",
    "C27_T_order_refuted",
    "C27_no_coordinate_refuted"
   ],
   "note": "any rank; T in another dimension order than S and DataArrays without vertical coordinate are counterexamples"
  },
  {
   "property": "C28",
   "status": "proved",
   "theorems": [
    "C28_pin_cast",
    "C28_dict_order_refuted",
    "C28_decreasing_labels_refuted"
   ],
   "note": "true for dicts in dimension order with increasing labels; refuted otherwise"
  },
  {
   "property": "C48",
   "status": "proved",
   "theorems": [
    "C48_edges_to_graph",
    "C48_symmetric",
    "C48_simple_graph",
    "C48_no_edge",
    "C48_loop_refuted"
   ],
   "note": "over the reals; docstring refuted for self loops and repeated edges"
  },
  {
   "property": "C49",
   "status": "proved",
   "theorems": [
    "C49_graph_binary_fcn",
    "C49_labels",
    "C49_negative_label_refuted"
   ],
   "note": "any arithmetic"
  },
  {
   "property": "C20",
   "status": "proved",
   "theorems": [
    "C20_adjacency",
    "C20_each_pair_once",
    "C20_raises"
   ],
   "note": "all sizes and periodicities; sizes for which the edge count is negative raise"
  },
  {
   "property": "C21",
   "status": "proved",
   "theorems": [
    "C21_alignment",
    "C21_maps",
    "C21_round_trip",
    "C21_empty",
    "C21_not_broadcastable"
   ],
   "note": "all sizes, periodicities and data"
  },
  {
   "property": "C22",
   "status": "proved",
   "theorems": [
    "C22_adjacency",
    "C22_fold_twice",
    "C22_each_pair_once_refuted",
    "C22_alignment",
    "C22_padding_refuted",
    "C22_round_trip"
   ],
   "note": "the two parts of the claim that are false are refuted"
  },
  {
   "property": "C23",
   "status": "proved",
   "theorems": [
    "C23_edges",
    "C23_geometry_refuted",
    "C23_right_refuted",
    "C23_default_metrics_refuted",
    "C23_maps"
   ],
   "note": "for any behaviour of xgcm that returns neighbours; the metrics are swapped, so the alignment part is refuted"
  },
  {
   "property": "C33",
   "status": "proved",
   "theorems": [
    "C33_potential",
    "C33_anomaly",
    "C33_exact_root",
    "C33_continuous",
    "C33_stratified"
   ],
   "note": "exact arithmetic with NaN and infinities; any eos, linear and pchip interpolation"
  },
  {
   "property": "C34",
   "status": "proved",
   "theorems": [
    "C34_check",
    "C34_potential_isovalue",
    "C34_anomaly_isovalue",
    "C34_potential_pinned",
    "C34_anomaly_pinned",
    "C34_pin_outside",
    "C34_pin_ignored_refuted",
    "C34_accepted_refuted"
   ],
   "note": "the documented claims that fail are refuted in binary64"
  },
  {
   "property": "C35",
   "status": "proved",
   "theorems": [
    "C35_omega_update",
    "C35_missing_surface_diverges"
   ],
   "note": "exact arithmetic; a finite non-zero perturbation where the surface is missing makes the search diverge, so the claim needs omega_input"
  },
  {
   "property": "C38",
   "status": "proved",
   "theorems": [
    "C38_errors",
    "C38_identical_water",
    "C38_antisymmetric",
    "C38_norms",
    "C38_mav_rms_max",
    "C38_reversal",
    "C38_permutation",
    "C38_default_refuted",
    "C38_nan_distance_refuted"
   ],
   "note": "exact arithmetic with NaN and infinities; the documented default distances do not exist (refuted)"
  },
  {
   "property": "C36",
   "status": "proved",
   "theorems": [
    "C36_poisson",
    "C36_gradient",
    "C36_formulations_agree",
    "C36_positive_definite",
    "C36_full_rank"
   ],
   "note": "exact arithmetic; scipy's spsolve and lsqr are arguments assumed exact on positive definite / full rank systems (contracts shown satisfiable); region connected through edges of positive weight"
  },
  {
   "property": "C37",
   "status": "proved",
   "theorems": [
    "C37_control",
    "C37_diagnostics",
    "C37_exact",
    "C37_changes",
    "C37_linear",
    "C37_pchip",
    "C37_every_iteration_diagnosed_refuted",
    "C37_pin_in_mixed_layer_refuted",
    "C37_no_iterations_refuted",
    "C37_formulation_known",
    "C37_formulation_unknown"
   ],
   "note": "control flow for any arithmetic; success and meaning of each iteration in exact arithmetic with scipy's solvers as exact arguments; the false parts are refuted in binary64"
  },
  {
   "property": "C39",
   "status": "proved",
   "theorems": [
    "C39_derivatives"
   ],
   "note": "rho is the published formula wherever it makes sense (s >= 0, K <> 0, K <> p), for scalar and array division; rho_p is its exact p derivative there, rho_s_t its exact s and t derivatives for s > 0. Exact real arithmetic."
  },
  {
   "property": "C40",
   "status": "proved",
   "theorems": [
    "C40_derivatives"
   ],
   "note": "As C39, for the 25-term rational function (with the code's 1e-40 guard in the denominator)."
  },
  {
   "property": "C41",
   "status": "proved",
   "theorems": [
    "C41_derivatives",
    "C41_real",
    "C41_clamped",
    "C41_clamped_refuted"
   ],
   "note": "A family H of functions with H 0 0 0 the 75-term polynomial, each the exact derivative of the one before (SA derivatives for SA > 0); all eight public functions return its members. For SA < 0 the returned SA derivative is not the derivative (refuted there). C41_real: specvol meets the hypotheses of the surface and trajectory theorems."
  },
  {
   "property": "C50",
   "status": "proved",
   "theorems": [
    "C50_jmd95_signs",
    "C50_jmd95_increasing",
    "C50_jmdfwg06_signs",
    "C50_jmdfwg06_increasing",
    "C50_gsw_signs",
    "C50_gsw_decreasing"
   ],
   "note": "Exact real arithmetic; bounds by interval Horner evaluation in fixed point, proved sound. Salinity monotonicity for positive salinities."
  },
  {
   "property": "C42",
   "status": "proved",
   "theorems": [
    "C42_choice",
    "C42_chain_rule",
    "C42_named",
    "C42_named_boussinesq",
    "C42_process",
    "C42_made_function_refuted"
   ],
   "note": "All clauses proved. Also proved false: that a function already made for depth can be passed together with grav and rho_c to every entry point (make_eos converts twice, _process_eos does not)."
  },
  {
   "property": "C46",
   "status": "proved",
   "theorems": [
    "C46_transparent",
    "C46_least_recently_used",
    "C46_equal_arguments_refuted"
   ],
   "note": "For every history, provided equal arguments (Python ==) give equal results; shown false without that proviso for 0.0 == -0.0. The lru_cache algorithm itself is modelled from the standard library's documentation."
  },
  {
   "property": "C43",
   "status": "proved",
   "theorems": [
    "C43_accuracy",
    "C43_convergence",
    "C43_additive",
    "C43_increasing",
    "C43_outside",
    "C43_default_p0",
    "C43_monotone_refuted",
    "C43_outside_padded_refuted",
    "C43_function_refuted"
   ],
   "note": "Exact real arithmetic, linear and pchip. Zero for p1 = p0 and antisymmetry are instances of C43_additive; exactness for affine gradients is C43_accuracy with M = 0. Three documented or expected claims are refuted: monotone in depth (C43_increasing says when it is), NaN for p1 outside a padded cast, eos may be a function."
  },
  {
   "property": "C44",
   "status": "proved",
   "theorems": [
    "C44_linear",
    "C44_outside",
    "C44_stable",
    "C44_named",
    "C44_missing",
    "C44_bad_index",
    "C44_columns",
    "C44_pair",
    "C44_crossing_refuted",
    "C44_shallowest_refuted",
    "C44_total_refuted",
    "C44_water_refuted"
   ],
   "note": "Stronger than stated: linear interpolation needs no monotone profile. C44_named discharges the density hypothesis for gsw (specific volume), jmd95 and jmdfwg06 (density), with and without Boussinesq depth. Refuted of non-monotone profiles: that a crossing is found, that it is the shallowest, that no error is raised; and that the interpolated water has the threshold density. bottle_index = -1 is proved to fail."
  },
  {
   "property": "C45",
   "status": "proved",
   "theorems": [
    "C45_count",
    "C45_count_bottles",
    "C45_missing_eos",
    "C45_each_bottle_refuted",
    "C45_stabilize",
    "C45_none_unstable",
    "C45_gap_refuted",
    "C45_zero_threshold_refuted",
    "C45_second_run",
    "C45_all_or_nothing_refuted",
    "C45_in_place",
    "C45_c_order",
    "C45_in_place_refuted",
    "C45_gradient"
   ],
   "note": "Exact real arithmetic; scipy's minimize is an arbitrary function that, when it reports success, meets the constraints within eps. Stable casts untouched, stabilised casts meet the thresholds and change only known levels, and least if the optimiser is optimal. Refuted: in-place update when the arrays have to be copied; no unstable pair when the cast has a gap or the threshold is 0; counting every bottle when interpolants are given; all-or-nothing on failure."
  },
  {
   "property": "C47",
   "status": "proved",
   "theorems": [
    "C47_accepted",
    "C47_walls",
    "C47_no_wall_refuted",
    "C47_pressures",
    "C47_bottom_refuted",
    "C47_profiles",
    "C47_temperatures",
    "C47_extremes",
    "C47_anomaly",
    "C47_uniform"
   ],
   "note": "Exact real arithmetic with NaN. As stated for two or more levels and a surface temperature that is not constant; shown false otherwise (P[-1] = 0 with one level, T all NaN when the surface temperature is constant). Also: profiles, ranges, effect of SSSSa, zonal uniformity, which shapes are accepted."
  },
  {
   "property": "C51",
   "status": "proved",
   "theorems": [
    "C51_coordinates",
    "C51_distances",
    "C51_areas"
   ],
   "note": "Exact real arithmetic."
  },
  {
   "property": "C52",
   "status": "proved",
   "theorems": [
    "C52_potential",
    "C52_anomaly",
    "C52_potential_pinned",
    "C52_anomaly_pinned",
    "C52_exact_root",
    "C52_no_grid",
    "C52_distances_optional_refuted"
   ],
   "note": "Exact real arithmetic with NaN; gsw, jmd95, jmdfwg06 over salinity 0..42, temperature -3..40, pressure 0..10000 dbar. The documented default distances of 1 in the grid are refuted: without distances the diagnostics raise KeyError."
  },
  {
   "property": "C53",
   "status": "proved",
   "theorems": [
    "C53_omega",
    "C53_mixed_layer",
    "C53_mixed_layer_function",
    "C53_mixed_layer_boussinesq_refuted",
    "C53_pins",
    "C53_negative_pin_refuted"
   ],
   "note": "Exact real arithmetic with NaN, scipy's spsolve and lsqr assumed exact on the systems that arise; salinity, temperature and pressure known at the same levels. C53_mixed_layer, C53_mixed_layer_function and C53_pins hold of any numbers. The arguments of a dict p_ml are applied to the equation of state already made: gravity and reference density given there again convert depth to pressure twice (refutation in binary64). Negative indices of the pin are accepted by potential_surf but refused by omega_surf, as is a single integer unless there is one horizontal dimension."
  },
  {
   "property": "C54",
   "status": "proved",
   "theorems": [
    "C54_jmd95",
    "C54_jmdfwg06",
    "C54_gsw",
    "C54_jmd95_resolves",
    "C54_jmdfwg06_resolves",
    "C54_gsw_resolves"
   ],
   "note": "IEEE 754 binary64 (SpecFloat, round to nearest even), no fused multiply-add and no reassociation; salinity derivatives for s > 0; first derivatives only. gsw accepts any s <= 42, negative values being clamped."
  },
  {
   "property": "C55",
   "status": "proved",
   "theorems": [
    "C55_brent_binary64",
    "C55_root_of_real_function",
    "C55_no_sign_change"
   ],
   "note": "IEEE 754 binary64 (SpecFloat, round to nearest even), no fused multiply-add and no reassociation. That end values of the same sign always give NaN is false when their product underflows: C01_brent_no_sign_change_f64_refuted."
  },
  {
   "property": "C56",
   "status": "proved",
   "theorems": [
    "C56_guess_to_bounds_binary64",
    "C56_brent_guess_binary64",
    "C56_always_ends_refuted"
   ],
   "note": "As C55. Guesses closer than 2^-1000 to, but not at, an end of the range are excluded; for one of them the search is shown never to end."
  },
  {
   "property": "C57",
   "status": "proved",
   "theorems": [
    "C57_potential",
    "C57_anomaly",
    "C57_omega",
    "C57_accuracy",
    "C57_linear",
    "C57_pchip",
    "C57_fresh_water_refuted"
   ],
   "note": "IEEE 754 binary64 (SpecFloat, round to nearest even), no fused multiply-add and no reassociation. For omega surfaces the starting guess must not be within 2^-1000 dbar of, but not at, an end of the column. Salinities between 0 and 0.001 are excluded for jmd95 and jmdfwg06 (C57_fresh_water_refuted shows why zero must be); gsw has no such limit."
  },
  {
   "property": "C58",
   "status": "proved",
   "theorems": [
    "C58_link",
    "C58_trajectory"
   ],
   "note": "As C57."
  },
  {
   "property": "C59",
   "status": "proved",
   "theorems": [
    "C59_potential",
    "C59_anomaly",
    "C59_potential_pinned",
    "C59_anomaly_pinned"
   ],
   "note": "As C57. diags=False; pin_cast an int or a tuple (labels: C52, in exact arithmetic); isovalues at most the bound B on the values of the equation of state."
  },
  {
   "property": "C60",
   "status": "proved",
   "theorems": [
    "C60_wrap_names",
    "C60_wrap_flags",
    "C60_wrap_missing",
    "C60_wrap_result",
    "C60_wrap_raises",
    "C60_wrap_unknown_refuted",
    "C60_wrap_tuple_refuted",
    "C60_interp_again",
    "C60_interp_given",
    "C60_interp_shape",
    "C60_interp_reuse_refuted"
   ],
   "note": "The two claims in square brackets are refuted on the model. Objects other than strings in wrap are represented by their truth value."
  },
  {
   "property": "C61",
   "status": "proved",
   "theorems": [
    "C61_gswc"
   ],
   "note": "The C library is a parameter with the contract teos_library."
  },
  {
   "property": "C62",
   "status": "proved",
   "theorems": [
    "C62_errors",
    "C62_left_to_right",
    "C62_diagnostics",
    "C62_potential",
    "C62_anomaly"
   ],
   "note": "As C57; salinity positive. C62_errors holds for every order of summation (numpy's np.sum adds pairwise); C62_diagnostics, C62_potential and C62_anomaly are about the model's left to right sums. C62_diagnostics covers every choice of reference, isovalue and pinning point: asking for diagnostics adds the norms and changes nothing else."
  },
  {
   "property": "C63",
   "status": "proved",
   "theorems": [
    "C63_search",
    "C63_perimeter",
    "C63_water_refuted"
   ],
   "note": "As C57. The claim in square brackets is refuted on the model: a bottle added by the second search can have a finite pressure, just below its cast, with NaN salinity and temperature. C63_perimeter asks that the columns stay 1 dbar above the greatest pressure of the range."
  },
  {
   "property": "C64",
   "status": "proved",
   "theorems": [
    "C64_linear",
    "C64_pchip",
    "C64_linear_coefficients",
    "C64_pchip_coefficients",
    "C64_columns"
   ],
   "note": "C64_columns asks that temperature has data exactly where salinity has (same_extent)."
  },
  {
   "property": "C65",
   "status": "proved",
   "theorems": [
    "C65_systems"
   ],
   "note": "As C62. What the solvers of scipy return is not claimed here, only what they are given and what is done with it."
  },
  {
   "property": "C66",
   "status": "proved",
   "theorems": [
    "C66_run",
    "C66_entry"
   ],
   "note": "As C65. The solvers of scipy are arbitrary functions returning arrays of the right size. Sums are from left to right."
  },
  {
   "property": "C67",
   "status": "proved",
   "theorems": [
    "C67_link",
    "C67_trajectory",
    "C67_defaults",
    "C67_outside",
    "C67_nan_start",
    "C67_refused",
    "C67_not_a_sequence",
    "C67_no_casts",
    "C67_link64",
    "C67_trajectory64",
    "C67_outside64",
    "C67_nan_start64"
   ],
   "note": "Exact real arithmetic, and binary64 as in C58. For a start outside the first cast, p0 must be within the range of the equation of state."
  },
  {
   "property": "C68",
   "status": "proved",
   "theorems": [
    "C68_stable",
    "C68_linear"
   ],
   "note": "As C57. C68_linear is about linear interpolation of arbitrary profiles; thresholds within d of the excess at the first or the last level of the block are not covered, for there a division by zero is possible (C44_total_refuted)."
  },
  {
   "property": "C69",
   "status": "proved",
   "theorems": [
    "C69_count",
    "C69_stabilize",
    "C69_none_unstable"
   ],
   "note": "As C57, except gsw (not an equation of state for density). scipy's minimize is an arbitrary function that, when it reports success, returns numbers that meet the constraints within eps, as evaluated in binary64."
  },
  {
   "property": "C70",
   "status": "proved",
   "theorems": [
    "C70_accuracy",
    "C70_explicit",
    "C70_increasing",
    "C70_outside"
   ],
   "note": "As C57. Linear interpolation only. numpy.linspace and trapz as in C43. In C70_accuracy f and g, the partial derivatives along the cast, are continued continuously beyond the cast; C70_explicit assumes nothing of them and has a number for every bound."
  }
 ]
}