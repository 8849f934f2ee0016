# Formal model of neutralocean in Rocq (Coq 8.16.1)

## 1. Approach

The Python code in /repo is modelled function by function as total Gallina
functions (shallow embedding).  Each definition cites file and lines.

* **Arithmetic.**  All numerical code is written once, over a class `Num F`
  of floating point operations (`theories/Num.v`), and read in three ways:
  * `R` – real numbers, for the calculus statements (derivatives of the
    equations of state, least squares);
  * `xr` – reals extended with NaN and ±infinity (`theories/XR.v`): exact
    arithmetic, IEEE handling of NaN, infinities and comparisons.  Most
    theorems about algorithms are about this instance.  The simplification is
    that there is no rounding, no overflow of finite numbers, and one zero;
  * `f64` – binary64 (`theories/SF.v`, from the standard library's
    `SpecFloat`): bit-exact IEEE arithmetic, executable.  Used for statements
    that claim bit equality, for refutations that can be replayed in Python, and
    for tests that compare the model with values printed in the repository.

  A theorem "for any arithmetic" is about every `Num F` (its few laws, if any,
  are hypotheses proved for all three instances in `NumLaws.v`).
* **Exceptions** are values: `res A := Ok a | Err e`.  Out-of-range accesses in
  compiled (nopython) code, which Python does not check, are `Err OutOfBounds`, so
  `= Ok ...` in a theorem includes memory safety.  Scalar division in
  numba-compiled code raises `ZeroDivisionError` (numba's default error model):
  `sdiv`.  Array division follows IEEE: `div`.
* **Loops.**  `for` loops are folds over ranges; `while` loops take fuel and give
  `Err OutOfFuel` when it runs out.  Theorems state a bound on the fuel that
  suffices; non-termination theorems say that every amount of fuel runs out.
* **Uninitialised memory** (`np.empty`) is an argument (`junk`), universally
  quantified; it has the right length and any content.
* **External libraries** (scipy solvers, scipy.optimize.minimize, xgcm, random
  numbers, user-supplied eos and interpolants) are arguments of the model
  functions, universally quantified, with their contract as an explicit hypothesis
  of the theorem that needs it.  Each contract is shown satisfiable (for instance
  by Gaussian elimination for the solvers).

## 2. Files

| files | content |
|-------|---------|
| `Num`, `NumLaws`, `XR`, `XRlemmas`, `SF` | arithmetic |
| `Res`, `Arr`, `ArrLemmas`, `Nd`, `NdLemmas` | exceptions, loops, arrays |
| `M_*` | the model, one file per Python module (or part of one) |
| `S_*` | specifications: what the properties mean, independent of the model |
| `P_*` | proofs |
| `Ex_*` | concrete cases that meet the hypotheses of the theorems; tests |
| `Properties_*` | the property theorems, each closed by `exact lemma`, with `Print Assumptions` |

## 3. What is modelled, and the simplifications made

Every function of the package is modelled except those in section 4.

* **fzero.py** (`M_fzero`): `guess_to_bounds`, `brent`, `brent_guess`, for an
  arbitrary function that may raise.  Machine epsilon is 2^-52 in every arithmetic.
* **ppinterp/** (`M_ppinterp`, `M_make_pp`, `M_numpy`): `valid_range_1*`, `pval`,
  `ppval_1*`, `ppinterp_1*`, linear and pchip coefficients and interpolation,
  `diff_1d_samesize`; `make_pp` as the string-building function it is, a function
  object being represented by its name.  `np.searchsorted` is the binary search
  that numpy and numba execute, on sorted and unsorted arrays.  The `guvectorize`
  wrappers apply the one-column functions along the last axis.
* **bfs.py** (`M_bfs`): all three searches, on flat arrays with explicit queue
  indices.
* **traj.py** (`M_traj`): all functions.  The result of a trajectory is a list of
  bottles; xarray output is not represented.  The entry points with their keyword
  arguments and array data (`M_trajentry`) return three lists; S, T and P of different
  shapes are refused by the model, while the code does not compare them.
* **lib.py** (`M_lib`): `find_first_nan`, `take_fill`, `aggsum`, `val_at`,
  `_process_casts`, `_process_vert_dim`, `_process_pin_cast`, and others.  A data
  argument is an array with or without dimension names and coordinates.  Memory
  contiguity and dtype conversion have no counterpart, except in `M_stability`
  (below).  `take_along_axis` requires equal shapes outside the axis (no
  broadcasting).  `drop_vars` raises if there is no such coordinate.
  `_process_eos` is in `M_eostools`.
  `_process_wrap` and `_interp_casts` are in `M_wrap`.
* **grid/graph.py** (`M_graph`): `edges_to_csr`, `edges_to_graph`, `build_grid`,
  `graph_binary_fcn`, `divergence`.  `scipy.linalg.issymmetric` is exact equality,
  diagonal included, for dense matrices; sparse input of `build_grid` is not
  represented.  The order of `find` is row-major for dense input and column-major
  after `triu`.
* **grid/rectilinear.py, tripolar.py, tools.py** (`M_grid`): two-dimensional arrays are lists
  of rows; slices, broadcasting and `reshape(-1)` follow numpy.  The
  default metrics are floats for which `.reshape` raises AttributeError, as in
  the code.  In tripolar.py the `im1` helper does not transpose, as in the code.
* **grid/xgcm.py** (`M_xgcm`): the xgcm library is an oracle returning neighbours.
* **surface/_vertsolve.py, isopycnal.py** (`M_vertsolve`): the horizontal array of
  casts is an array of triples of columns.  What numba cannot type is a TypeError.  The
  kind of exception for tuples of the wrong length is not exact.  Diagnostics are in
  `M_surfaces`; printing is left out.
* **ntp.py** (`M_ntp`): node labels are non-negative.  The norms take `np.sum` as an
  argument (`ntp_epsilon_errors_norms_by`); elsewhere sums run from left to right (numpy's are pairwise).  Scalar distances are Python floats (their quotient raises on
  division by 0).
* **surface/omega.py** (`M_matsolve`, `M_omega`): the two matrix problems and the
  driver.  Sparse matrices are functions of row and column, built by summing
  repeated entries.  scipy's `spsolve` and `lsqr` are arguments; where a theorem
  needs it they are assumed exact on the systems that arise.
  `iter_` being unbound is a NameError.  Timers and printing are left out.  The result carries the record of the iterations as ghost
  output.
* **The entry points `potential_surf`, `anomaly_surf`, `omega_surf`** (`M_surfaces`): the
  whole functions, from their keyword arguments and labelled data to labelled
  surfaces and diagnostics.  Names and attributes of labelled arrays, the timer and
  the kind of numbers are left out of the results.  A pin given by labels is found by
  searching each dimension's index; a label given for a dimension that S lacks is a
  KeyError.  `p_init` is a number, an array, or anything else.  The keywords of a dict `p_ml` are
  those of `mixed_layer`, given or left at the defaults of its signature.  `np.prod(())` is a float, so `omega_surf` of a
  single cast is a TypeError.  A dict of options with unknown keywords has no counterpart.
* **eos/jmd95.py, jmdfwg06.py, gsw.py** (`M_eos_base`, `M_jmd95`, `M_jmdfwg06`,
  `M_gsw`): generated mechanically from the source text; order of operations and
  decimal literals are kept.  `x ** n` is repeated multiplication.
* **eos/tools.py** (`M_eostools`, `M_cache`): `make_eos*`, `make_bsq`,
  `_process_eos`.  `functools.lru_cache` is modelled separately from its
  documented algorithm, keys compared by `==`; unhashable arguments, threads and
  reentrant calls are left out.  `vectorize_eos` is "apply to each element".
* **eos/gswc.py** (`M_wrap`): the functions of the TEOS-10 C library are arguments.
  The theorems that relate them to eos/gsw.py assume the contract
  `teos_library` (they compute the 75-term polynomial of TEOS-10 and its derivatives).
* **label.py** (`M_label`): `int(np.ceil(x))` of NaN or infinity raises
  ValueError.  `np.linspace` and `np.trapz` are written out in numba's order of operations.  `eos` is
  called with scalars (`sdiv`), `eos_s_t` with arrays (IEEE division).
* **mixed_layer.py** (`M_mixed_layer`): S and T of one shape.  Core dimensions of
  gufuncs must agree.  Exceptions inside a gufunc propagate.
* **stability.py** (`M_stability`): S and T of one shape.  eos is elementwise.  scipy's
  `minimize` and the random numbers are arguments.  A memory layer (buffer,
  start, strides) models whether the caller's array is changed in place.  The
  writeable flag, S and T being the same array, and the state of S if the update of T fails are
  not represented.  Unknown keywords are ignored silently, as in the code.
* **synthocean.py** (`M_synthocean`): numpy's `linspace` written out, including its
  branch for step 0; broadcasting of equal ranks; `np.min`/`np.max` propagate
  NaN.  The dict of geometry is modelled over any sine, cosine and pi, the theorems are about the
  real ones.  Shape entries are integers.

## 4. Not modelled

* `examples/`, `tests/`, docs.
* numba compilation, numpy/xarray internals beyond the functions named above,
  timers, printed output, plotting.
* Rounding, in the theorems about `xr` and `R`; the equations of state, interpolants,
  searches and solvers are there evaluated in exact arithmetic.  Rounding is treated in
  C54 (`S_float`, `P_float*`, `P_eosfloat*`, linked to Flocq's binary64).
  Rounding of the root finders: C55 and C56 (`S_fzero64`, `P_fl`, `P_brent64`, `P_gtb64`,
  `P_fzero64`).  Rounding of interpolation, equation of state and root finder together, for
  surfaces and trajectories with linear or PCHIP interpolation: C57 and C58 (`S_vert64`, `P_holds`, `P_linear64`, `P_pchip64*`,
  `P_eosfloat4`, `P_vert64`, `P_surf64`, `P_traj64`); for the entry points `potential_surf` and `anomaly_surf`:
  C59 (`S_entry64`, `P_entry64`); of the neutrality errors, their norms and the diagnostics of
  surfaces: C62 (`S_ntp64`, `P_ntp64*`, `P_sum64`, `P_norms64`, `P_ntpnorms64`, `P_ntpnan64`, `P_surfdiag64`).  The wetting
  searches: C63 (`S_omega64`, `P_sign64`, `P_lost64`, `P_wet64`).  Interpolation on the fly and from coefficients of whole arrays: C64 (`P_fly64`).  The linear problems of omega surfaces, as handed to the solvers: C65 (`S_system64`, `P_system64`, `P_system64b`).  The driver of omega surfaces, with arbitrary solvers: C66 (`S_run64`, `P_mean64`, `P_omega64`, `P_omega64b`).  The entry points of traj.py: C67 (`P_trajentry64`).  The mixed layer: C68 (`S_ml64`, `P_ml64`, `P_ml64b`, `P_ml64c`).  Static stability: C69 (`S_stability64`, `P_stability64`, `P_stability64b`, `P_stability64c`).  The Veronis density with linear interpolation: C70 (`S_label64`, `P_quad64`, `P_linspace64`, `P_label64`, `P_label64b`, `P_label64c`, `P_label64d`); its truncation error for the named equations of state uses a fourth reading of the code, over functions of one variable with interval bounds for the value and the first two derivatives (`P_jet`, `P_jeteos`, `P_label64e`); where it increases: `P_label64f`.  Not treated: the solvers of scipy.
* Fused multiply-add contraction and reassociation (`fastmath` is not used in the
  package; LLVM does not contract by default).

## 5. Trusted base

* The Coq kernel, including its virtual machine (`vm_compute` is used for the binary64
  refutations and examples).
* The axioms listed in section 6 (all of the standard library).
* The faithfulness of the `M_*` files to the Python text, with the simplifications
  above, and that the `S_*` files say what the properties mean.
* Contracts of external libraries where they are hypotheses of theorems.

No axioms, parameters or admitted proofs of our own; no kernel check is switched off.
The theorems were tested against wrong programs; the attempts are in seeded/LOG.jsonl.

## 6. Axioms of each theorem

What `Print Assumptions` prints beneath each theorem, abbreviated.  Only axioms of the standard
library occur:

* A = `ClassicalDedekindReals.sig_forall_dec`
* B = `ClassicalDedekindReals.sig_not_dec`
* C = `FunctionalExtensionality.functional_extensionality_dep`
* D = `Classical_Prop.classic`
* E = `Description.constructive_definite_description`

A, B, C come with the real numbers, D with Coquelicot's and the standard library's analysis.
E is used in one worked example only, where a perfect minimiser is shown to exist.

**none (closed under the global context)** (179): `C01_brent_no_sign_change_f64_refuted`, `C06_valid_range_1`, `C06_valid_range_1_two`, `C06_valid_range_doc_refuted`, `C13_linear_same`, `C13_pchip_same_f64`, `C13_pchip_same_inf_refuted`, `C14_ppinterp_1_two`, `C14_ppval_1_two`, `C15_ex`, `C15_make_pp`, `C16_diff`, `C16_diff_empty_refuted`, `C16_ex`, `C17_bfs_component`, `C17_witness`, `C18_bfs_order`, `C19_adjacency`, `C19_edges_to_csr`, `C19_no_edges`, `C19_total_degree`, `C19_witness`, `C20_adjacency`, `C20_each_pair_once`, `C20_raises`, `C20_small_periodic`, `C20_witness`, `C21_alignment`, `C21_empty`, `C21_maps`, `C21_not_broadcastable`, `C21_round_trip`, `C21_witness`, `C22_adjacency`, `C22_alignment`, `C22_each_pair_once_refuted`, `C22_fold_twice`, `C22_padding_refuted`, `C22_round_trip`, `C22_witness`, `C23_default_metrics_refuted`, `C23_edges`, `C23_geometry_refuted`, `C23_maps`, `C23_right_refuted`, `C23_witness`, `C23_witness_grid`, `C24_f64_laws`, `C24_matrix`, `C24_one_sided`, `C24_same_structure_accepted_refuted`, `C24_symmetric`, `C24_symmetric_structure_refuted`, `C24_witness`, `C25_divergence`, `C25_isolated_last_node_refuted`, `C25_scalars`, `C25_witness`, `C26_aggsum`, `C26_bottom`, `C26_find_first_nan`, `C26_find_first_nan_doc_refuted`, `C26_take_fill`, `C26_val_at`, `C26_val_at_1d`, `C26_val_at_int`, `C26_val_at_negative`, `C26_val_at_singleton_refuted`, `C26_val_at_unchanged_refuted`, `C26_witness`, `C27_T_order_refuted`, `C27_container`, `C27_no_coordinate_refuted`, `C27_process_casts`, `C27_vert_dim_int`, `C27_vert_dim_name`, `C27_witness`, `C28_decreasing_labels_refuted`, `C28_dict_order_refuted`, `C28_pin_cast`, `C28_witness`, `C30_land_start_refuted`, `C30_trajectory`, `C30_witness`, `C31_one_ntp_per_cast_refuted`, `C31_wetting_search`, `C31_witness`, `C32_below_mixed_layer_refuted`, `C32_no_further_links_refuted`, `C32_order_insensitive_refuted`, `C32_perimeter_wetting`, `C32_witness`, `C34_accepted_refuted`, `C34_check`, `C34_pin_ignored_refuted`, `C34_witness_run`, `C37_control`, `C37_diagnostics`, `C37_every_iteration_diagnosed_refuted`, `C37_formulation_known`, `C37_no_iterations_refuted`, `C37_pin_in_mixed_layer_refuted`, `C37_run`, `C37_spelling`, `C38_default_refuted`, `C38_nan_distance_refuted`, `C42_choice`, `C42_process`, `C43_default_p0`, `C43_function_refuted`, `C44_columns`, `C44_ex_columns`, `C44_ex_pair`, `C44_pair`, `C45_all_or_nothing_refuted`, `C45_c_order`, `C45_each_bottle_refuted`, `C45_gap_refuted`, `C45_in_place`, `C45_in_place_case`, `C45_in_place_refuted`, `C45_missing_eos`, `C45_zero_threshold_refuted`, `C46_equal_arguments_refuted`, `C46_least_recently_used`, `C46_transparent`, `C46_witness`, `C47_bottom_refuted`, `C47_no_wall_refuted`, `C48_loop_refuted`, `C49_graph_binary_fcn`, `C49_labels`, `C49_labels_witness`, `C49_negative_label_refuted`, `C52_run`, `C52_run_no_distances`, `C53_mixed_layer`, `C53_mixed_layer_boussinesq_refuted`, `C53_mixed_layer_function`, `C53_negative_pin_refuted`, `C53_pins`, `C53_run`, `C54_run`, `C55_run`, `C56_run`, `C57_pchip_run`, `C57_run`, `C58_run`, `C59_run`, `C60_case`, `C60_interp_again`, `C60_interp_given`, `C60_interp_shape`, `C60_wrap_flags`, `C60_wrap_missing`, `C60_wrap_names`, `C60_wrap_raises`, `C60_wrap_result`, `C60_wrap_tuple_refuted`, `C60_wrap_unknown_refuted`, `C62_left_to_right`, `C62_pchip_run`, `C62_run`, `C62_surface_run`, `C63_run`, `C64_run`, `C64_run_outside`, `C65_ratio`, `C65_run`, `C66_runs`, `C66_solvers`, `C67_empty`, `C67_no_casts`, `C67_not_a_sequence`, `C67_refused`, `C67_run`, `C68_run`, `C69_counts`, `C69_run`

**A** (3): `C29_witness_short`, `C44_ex_missing`, `C67_one_cast`

**A C** (28): `C08_ex`, `C09_ex`, `C10_ex`, `C11_ex`, `C12_ex`, `C33_continuous`, `C33_stratified`, `C35_witness`, `C38_identical_water`, `C44_ex`, `C48_no_edge`, `C48_simple_graph`, `C48_symmetric`, `C50_nonvacuous`, `C56_always_ends_refuted`, `C57_accuracy`, `C59_coordinate`, `C59_pin`, `C62_bottles`, `C62_distances`, `C62_geometry`, `C64_inside`, `C64_witness`, `C65_distances`, `C65_nodes`, `C66_edges`, `C66_options`, `C66_pin`

**A B C** (134): `C01_brent_continuous_root`, `C01_brent_nan_bounds`, `C01_brent_nan_iff`, `C01_brent_sound_total`, `C01_ex`, `C02_ex`, `C02_guess_to_bounds`, `C03_ex`, `C03_nan_guess_diverges`, `C04_brent_guess`, `C04_ex`, `C05_root_within_tol_refuted`, `C06_ex`, `C07_ex`, `C07_pval_finite`, `C08_cases`, `C08_no_data`, `C08_nonan`, `C08_ppinterp_1`, `C08_ppinterp_1_two`, `C08_ppval_1`, `C08_ppval_1_two`, `C12_pchip_no_data`, `C12_pchip_total`, `C13_ex`, `C13_pchip_same_xr`, `C14_ex`, `C25_conserves`, `C25_linear`, `C25_outflow`, `C29_nan_bottle_refuted`, `C29_neutral_point`, `C29_ntp_link`, `C29_short_cast`, `C29_witness`, `C30_total`, `C30_witness_total`, `C31_wetting_total`, `C31_witness_total`, `C32_perimeter_total`, `C33_anomaly`, `C33_exact_root`, `C33_potential`, `C33_witness`, `C34_anomaly_isovalue`, `C34_anomaly_pinned`, `C34_pin_outside`, `C34_potential_isovalue`, `C34_potential_pinned`, `C34_witness`, `C34_witness_outside`, `C35_missing_surface_diverges`, `C35_omega_update`, `C35_witness_nan`, `C36_formulations_agree`, `C36_full_rank`, `C36_gradient`, `C36_poisson`, `C36_positive_definite`, `C36_witness`, `C37_changes`, `C37_exact`, `C37_formulation_unknown`, `C38_antisymmetric`, `C38_errors`, `C38_mav_rms_max`, `C38_norms`, `C38_permutation`, `C38_reversal`, `C38_witness`, `C39_derivatives`, `C39_nonvacuous`, `C40_derivatives`, `C40_nonvacuous`, `C41_clamped`, `C41_clamped_refuted`, `C41_derivatives`, `C41_real`, `C42_chain_rule`, `C42_named`, `C42_named_boussinesq`, `C42_witness`, `C43_outside`, `C43_outside_padded_refuted`, `C44_bad_index`, `C44_crossing_refuted`, `C44_ex_named`, `C44_linear`, `C44_missing`, `C44_named`, `C44_outside`, `C44_shallowest_refuted`, `C44_total_refuted`, `C45_count`, `C45_count_bottles`, `C45_count_bottles_case`, `C45_count_case`, `C45_gradient`, `C45_missing_eos_case`, `C45_stabilize`, `C47_accepted`, `C47_anomaly`, `C47_case`, `C47_extremes`, `C47_pressures`, `C47_profiles`, `C47_temperatures`, `C47_uniform`, `C47_walls`, `C48_edges_to_graph`, `C50_gsw_signs`, `C50_jmd95_signs`, `C50_jmdfwg06_signs`, `C51_areas`, `C51_coordinates`, `C51_distances`, `C52_exact_root`, `C52_witness`, `C53_witness`, `C55_root_of_real_function`, `C57_columns`, `C57_fresh_water_refuted`, `C57_guess`, `C58_columns`, `C59_columns`, `C60_interp_reuse_refuted`, `C62_partials`, `C63_water_refuted`, `C63_witness`, `C64_columns_witness`, `C66_columns`, `C67_witness`, `C67_witness64`, `C68_hypotheses`

**A B C D** (95): `C07_pval_derivative`, `C09_linear_interp`, `C10_pchip_c1`, `C11_pchip_shape`, `C29_linear`, `C29_pchip`, `C37_linear`, `C37_pchip`, `C37_witness`, `C42_made_function_refuted`, `C43_accuracy`, `C43_additive`, `C43_convergence`, `C43_increasing`, `C43_monotone_refuted`, `C43_witness`, `C43_witness_increasing`, `C44_stable`, `C44_water_refuted`, `C45_none_unstable`, `C45_second_run`, `C45_stabilize_case`, `C50_gsw_decreasing`, `C50_jmd95_increasing`, `C50_jmdfwg06_increasing`, `C52_anomaly`, `C52_anomaly_pinned`, `C52_distances_optional_refuted`, `C52_no_grid`, `C52_potential`, `C52_potential_pinned`, `C53_omega`, `C54_gsw`, `C54_gsw_resolves`, `C54_jmd95`, `C54_jmd95_resolves`, `C54_jmdfwg06`, `C54_jmdfwg06_resolves`, `C54_witness`, `C55_accurate`, `C55_brent_binary64`, `C55_no_sign_change`, `C56_brent_guess_binary64`, `C56_guess_to_bounds_binary64`, `C56_witness`, `C57_anomaly`, `C57_linear`, `C57_omega`, `C57_pchip`, `C57_potential`, `C58_link`, `C58_trajectory`, `C59_anomaly`, `C59_anomaly_pinned`, `C59_potential`, `C59_potential_pinned`, `C61_gswc`, `C61_library`, `C62_anomaly`, `C62_diagnostics`, `C62_errors`, `C62_potential`, `C63_perimeter`, `C63_search`, `C64_columns`, `C64_linear`, `C64_linear_coefficients`, `C64_pchip`, `C64_pchip_coefficients`, `C65_systems`, `C66_entry`, `C66_run`, `C67_defaults`, `C67_link`, `C67_link64`, `C67_nan_start`, `C67_nan_start64`, `C67_outside`, `C67_outside64`, `C67_trajectory`, `C67_trajectory64`, `C68_linear`, `C68_stable`, `C69_count`, `C69_hypotheses`, `C69_none_unstable`, `C69_stabilize`, `C70_accuracy`, `C70_explicit`, `C70_increasing`, `C70_outside`, `C70_witness`, `C70_witness_explicit`, `C70_witness_increasing`, `C70_witness_outside`

**A B C D E** (1): `C45_optimal_case`

## 7. Status of each property

Names ending in `_refuted` prove that (a clause of) the property as stated is false of the model;
the other theorems of the row prove the rest.  The full statements are in properties.jsonl.

| id | title | status | theorems | remarks |
|----|-------|--------|----------|---------|
| C01 | Brent root finder: sound, total, never divides by zero | proved | `C01_brent_sound_total`, `C01_brent_continuous_root`, `C01_brent_nan_iff`, `C01_brent_nan_bounds`, `C01_brent_no_sign_change_f64_refuted` | exact real arithmetic; the binary64 theorem is a finding: underflow of fa*fb defeats the sign-change guard |
| C02 | guess_to_bounds: the bracket is valid and complete | proved | `C02_guess_to_bounds` |  |
| C03 | guess_to_bounds terminates for a numeric guess, within a fixed number of expansions; and hangs for a NaN guess | proved | `C02_guess_to_bounds`, `C03_nan_guess_diverges` | 13 passes bound is in C02; divergence for NaN guess is a finding |
| C04 | brent_guess: root search from a guess | proved | `C04_brent_guess` |  |
| C05 | Documented accuracy of neutral tangent plane links | proved | `C05_root_within_tol_refuted` | the documented bound is false (refutation); the bound that does hold is in C01/C04 |
| C06 | Valid data range of a cast | proved | `C06_valid_range_1`, `C06_valid_range_1_two`, `C06_valid_range_doc_refuted` | any arithmetic; one docstring sentence refuted |
| C07 | pval evaluates the polynomial and all its derivatives | proved | `C07_pval_derivative`, `C07_pval_finite` |  |
| C08 | Evaluation of piecewise polynomials: where NaN is returned and which piece is used | proved | `C08_ppval_1`, `C08_ppval_1_two`, `C08_ppinterp_1`, `C08_ppinterp_1_two`, `C08_cases`, `C08_no_data`, `C08_nonan` |  |
| C09 | Linear interpolant is correct everywhere | proved | `C09_linear_interp`, `C13_linear_same` |  |
| C10 | PCHIP interpolates and is continuously differentiable | proved | `C10_pchip_c1` | also pins the slopes to the textbook formula |
| C11 | PCHIP is shape preserving | proved | `C11_pchip_shape`, `C10_pchip_c1` |  |
| C12 | PCHIP never divides by zero | proved | `C12_pchip_total`, `C12_pchip_no_data` | exact real arithmetic |
| C13 | On-the-fly interpolation equals interpolation from precomputed coefficients | proved | `C13_linear_same`, `C13_pchip_same_f64`, `C13_pchip_same_xr`, `C13_pchip_same_inf_refuted` | bit-exact in binary64; counterexample with infinities |
| C14 | Two-variable interpolation equals two single interpolations | proved | `C14_ppinterp_1_two`, `C14_ppval_1_two` |  |
| C15 | make_pp dispatch is total and names only existing functions | proved | `C15_make_pp` |  |
| C16 | diff_1d_samesize is insensitive to its out-of-range read | proved | `C16_diff`, `C16_diff_empty_refuted` |  |
| C17 | Connected component search is exact | proved | `C17_bfs_component` |  |
| C18 | BFS order | proved | `C18_bfs_order` |  |
| C19 | Edges to CSR adjacency is exact | proved | `C19_edges_to_csr`, `C19_total_degree`, `C19_adjacency`, `C19_no_edges` |  |
| C20 | Rectilinear grid adjacency | proved | `C20_adjacency`, `C20_each_pair_once`, `C20_raises` | all sizes and periodicities; sizes for which the edge count is negative raise |
| C21 | Edge data alignment and round trip on rectilinear grids | proved | `C21_alignment`, `C21_maps`, `C21_round_trip`, `C21_empty`, `C21_not_broadcastable` | all sizes, periodicities and data |
| C22 | Tripolar grid adjacency and edge data | proved | `C22_adjacency`, `C22_fold_twice`, `C22_each_pair_once_refuted`, `C22_alignment`, `C22_padding_refuted`, `C22_round_trip` | the two parts of the claim that are false are refuted |
| C23 | xgcm grid: edge geometry belongs to the edge | proved | `C23_edges`, `C23_geometry_refuted`, `C23_right_refuted`, `C23_default_metrics_refuted`, `C23_maps` | for any behaviour of xgcm that returns neighbours; the metrics are swapped, so the alignment part is refuted |
| C24 | Grid from a graph: each adjacent pair exactly once | proved | `C24_symmetric`, `C24_one_sided`, `C24_matrix`, `C24_f64_laws`, `C24_symmetric_structure_refuted`, `C24_same_structure_accepted_refuted` | dense matrices, any arithmetic; for a dict of matrices with symmetric structure but unsymmetric values the claim is refuted (pair listed twice, or ValueError) |
| C25 | Discrete divergence conserves | proved | `C25_divergence`, `C25_scalars`, `C25_outflow`, `C25_conserves`, `C25_linear`, `C25_isolated_last_node_refuted` | node formula in any arithmetic, conservation and linearity over the reals; one area per node is rejected when the last node has no edge |
| C26 | take_fill, aggsum, find_first_nan and val_at index conventions | proved | `C26_find_first_nan`, `C26_find_first_nan_doc_refuted`, `C26_take_fill`, `C26_aggsum`, `C26_val_at`, `C26_val_at_1d`, `C26_val_at_int`, `C26_val_at_negative`, `C26_bottom`, `C26_val_at_unchanged_refuted`, `C26_val_at_singleton_refuted` | any arithmetic, any rank; the parts of the claim that are false are refuted |
| C27 | Casts are laid out correctly whatever the vertical dimension | proved | `C27_process_casts`, `C27_vert_dim_int`, `C27_vert_dim_name`, `C27_container`, `C27_T_order_refuted`, `C27_no_coordinate_refuted` | any rank; T in another dimension order than S and DataArrays without vertical coordinate are counterexamples |
| C28 | pin_cast given as a dict selects the cast S.sel(pin_cast) | proved | `C28_pin_cast`, `C28_dict_order_refuted`, `C28_decreasing_labels_refuted` | true for dicts in dimension order with increasing labels; refuted otherwise |
| C29 | NTP link: bottle to cast | proved | `C29_ntp_link`, `C29_neutral_point`, `C29_short_cast`, `C29_linear`, `C29_pchip`, `C29_nan_bottle_refuted` | exact real arithmetic; a bottle with NaN pressure makes the bracket search loop forever |
| C30 | Neutral trajectory | proved | `C30_trajectory`, `C30_total`, `C30_land_start_refuted` | first theorem over any arithmetic; totality in exact arithmetic; a land-locked first cast fails |
| C31 | Wetting BFS (bfs_conncomp1_wet) | proved | `C31_wetting_search`, `C31_wetting_total`, `C31_one_ntp_per_cast_refuted` | any arithmetic, any eos and interpolant; an exception can only be that of an NTP calculation; the docstring's 'at most one NTP calculation per dry cast' is refuted |
| C32 | Perimeter wetting (bfs_conncomp1_wet_perim) | proved | `C32_perimeter_wetting`, `C32_perimeter_total`, `C32_below_mixed_layer_refuted`, `C32_order_insensitive_refuted`, `C32_no_further_links_refuted` | any arithmetic; three documented claims are refuted by binary64 executions |
| C33 | Potential density / specific volume anomaly surface solves its equation on every cast | proved | `C33_potential`, `C33_anomaly`, `C33_exact_root`, `C33_continuous`, `C33_stratified` | exact arithmetic with NaN and infinities; any eos, linear and pchip interpolation |
| C34 | Isopycnal reference values and pinning | proved | `C34_check`, `C34_potential_isovalue`, `C34_anomaly_isovalue`, `C34_potential_pinned`, `C34_anomaly_pinned`, `C34_pin_outside`, `C34_pin_ignored_refuted`, `C34_accepted_refuted` | the documented claims that fail are refuted in binary64 |
| C35 | Omega vertical update | proved | `C35_omega_update`, `C35_missing_surface_diverges` | exact arithmetic; a finite non-zero perturbation where the surface is missing makes the search diverge, so the claim needs omega_input |
| C36 | Omega matrix problem: well posed, pinned, least squares | proved | `C36_poisson`, `C36_gradient`, `C36_formulations_agree`, `C36_positive_definite`, `C36_full_rank` | exact arithmetic; scipy's spsolve and lsqr are arguments assumed exact on positive definite / full rank systems (contracts shown satisfiable); region connected through edges of positive weight |
| C37 | Omega driver loop | proved | `C37_control`, `C37_diagnostics`, `C37_exact`, `C37_changes`, `C37_linear`, `C37_pchip`, `C37_every_iteration_diagnosed_refuted`, `C37_pin_in_mixed_layer_refuted`, `C37_no_iterations_refuted`, `C37_formulation_known`, `C37_formulation_unknown` | control flow for any arithmetic; success and meaning of each iteration in exact arithmetic with scipy's solvers as exact arguments; the false parts are refuted in binary64 |
| C38 | Epsilon neutrality errors | proved | `C38_errors`, `C38_identical_water`, `C38_antisymmetric`, `C38_norms`, `C38_mav_rms_max`, `C38_reversal`, `C38_permutation`, `C38_default_refuted`, `C38_nan_distance_refuted` | exact arithmetic with NaN and infinities; the documented default distances do not exist (refuted) |
| C39 | JMD95 equation of state: analytic derivatives are the derivatives | proved | `C39_derivatives` | rho is the published formula wherever it makes sense (s >= 0, K <> 0, K <> p), for scalar and array division; rho_p is its exact p derivative there, rho_s_t its exact s and t derivatives for s > 0. Exact real arithmetic. |
| C40 | JMDFWG06 equation of state: analytic derivatives are the derivatives | proved | `C40_derivatives` | As C39, for the 25-term rational function (with the code's 1e-40 guard in the denominator). |
| C41 | GSW specific volume: all first, second and third derivatives are the derivatives | proved | `C41_derivatives`, `C41_real`, `C41_clamped`, `C41_clamped_refuted` | A family H of functions with H 0 0 0 the 75-term polynomial, each the exact derivative of the one before (SA derivatives for SA > 0); all eight public functions return its members. For SA < 0 the returned SA derivative is not the derivative (refuted there). C41_real: specvol meets the hypotheses of the surface and trajectory theorems. |
| C42 | Boussinesq conversion | proved | `C42_choice`, `C42_chain_rule`, `C42_named`, `C42_named_boussinesq`, `C42_process`, `C42_made_function_refuted` | All clauses proved. Also proved false: that a function already made for depth can be passed together with grav and rho_c to every entry point (make_eos converts twice, _process_eos does not). |
| C43 | Veronis density | proved | `C43_accuracy`, `C43_convergence`, `C43_additive`, `C43_increasing`, `C43_outside`, `C43_default_p0`, `C43_monotone_refuted`, `C43_outside_padded_refuted`, `C43_function_refuted` | Exact real arithmetic, linear and pchip. Zero for p1 = p0 and antisymmetry are instances of C43_additive; exactness for affine gradients is C43_accuracy with M = 0. Three documented or expected claims are refuted: monotone in depth (C43_increasing says when it is), NaN for p1 outside a padded cast, eos may be a function. |
| C44 | Mixed layer pressure | proved | `C44_linear`, `C44_outside`, `C44_stable`, `C44_named`, `C44_missing`, `C44_bad_index`, `C44_columns`, `C44_pair`, `C44_crossing_refuted`, `C44_shallowest_refuted`, `C44_total_refuted`, `C44_water_refuted` | Stronger than stated: linear interpolation needs no monotone profile. C44_named discharges the density hypothesis for gsw (specific volume), jmd95 and jmdfwg06 (density), with and without Boussinesq depth. Refuted of non-monotone profiles: that a crossing is found, that it is the shallowest, that no error is raised; and that the interpolated water has the threshold density. bottle_index = -1 is proved to fail. |
| C45 | Static stability tools | proved | `C45_count`, `C45_count_bottles`, `C45_missing_eos`, `C45_each_bottle_refuted`, `C45_stabilize`, `C45_none_unstable`, `C45_gap_refuted`, `C45_zero_threshold_refuted`, `C45_second_run`, `C45_all_or_nothing_refuted`, `C45_in_place`, `C45_c_order`, `C45_in_place_refuted`, `C45_gradient` | Exact real arithmetic; scipy's minimize is an arbitrary function that, when it reports success, meets the constraints within eps. Stable casts untouched, stabilised casts meet the thresholds and change only known levels, and least if the optimiser is optimal. Refuted: in-place update when the arrays have to be copied; no unstable pair when the cast has a gap or the threshold is 0; counting every bottle when interpolants are given; all-or-nothing on failure. |
| C46 | Memoised factories are transparent | proved | `C46_transparent`, `C46_least_recently_used`, `C46_equal_arguments_refuted` | For every history, provided equal arguments (Python ==) give equal results; shown false without that proviso for 0.0 == -0.0. The lru_cache algorithm itself is modelled from the standard library's documentation. |
| C47 | Synthetic ocean | proved | `C47_accepted`, `C47_walls`, `C47_no_wall_refuted`, `C47_pressures`, `C47_bottom_refuted`, `C47_profiles`, `C47_temperatures`, `C47_extremes`, `C47_anomaly`, `C47_uniform` | Exact real arithmetic with NaN. As stated for two or more levels and a surface temperature that is not constant; shown false otherwise (P[-1] = 0 with one level, T all NaN when the surface temperature is constant). Also: profiles, ranges, effect of SSSSa, zonal uniformity, which shapes are accepted. |
| C48 | Matrix of an edge list | proved | `C48_edges_to_graph`, `C48_symmetric`, `C48_simple_graph`, `C48_no_edge`, `C48_loop_refuted` | over the reals; docstring refuted for self loops and repeated edges |
| C49 | Binary function on edges | proved | `C49_graph_binary_fcn`, `C49_labels`, `C49_negative_label_refuted` | any arithmetic |
| C50 | Equations of state over the oceanographic range | proved | `C50_jmd95_signs`, `C50_jmd95_increasing`, `C50_jmdfwg06_signs`, `C50_jmdfwg06_increasing`, `C50_gsw_signs`, `C50_gsw_decreasing` | Exact real arithmetic; bounds by interval Horner evaluation in fixed point, proved sound. Salinity monotonicity for positive salinities. |
| C51 | Geometry of the synthetic ocean | proved | `C51_coordinates`, `C51_distances`, `C51_areas` | Exact real arithmetic. |
| C52 | Potential density and anomaly surfaces, whole function | proved | `C52_potential`, `C52_anomaly`, `C52_potential_pinned`, `C52_anomaly_pinned`, `C52_exact_root`, `C52_no_grid`, `C52_distances_optional_refuted` | Exact real arithmetic with NaN; gsw, jmd95, jmdfwg06 over salinity 0..42, temperature -3..40, pressure 0..10000 dbar. The documented default distances of 1 in the grid are refuted: without distances the diagnostics raise KeyError. |
| C53 | Omega surfaces, whole function | proved | `C53_omega`, `C53_mixed_layer`, `C53_mixed_layer_function`, `C53_mixed_layer_boussinesq_refuted`, `C53_pins`, `C53_negative_pin_refuted` | Exact real arithmetic with NaN, scipy's spsolve and lsqr assumed exact on the systems that arise; salinity, temperature and pressure known at the same levels. C53_mixed_layer, C53_mixed_layer_function and C53_pins hold of any numbers. The arguments of a dict p_ml are applied to the equation of state already made: gravity and reference density given there again convert depth to pressure twice (refutation in binary64). Negative indices of the pin are accepted by potential_surf but refused by omega_surf, as is a single integer unless there is one horizontal dimension. |
| C54 | Rounding errors of the equations of state | proved | `C54_jmd95`, `C54_jmdfwg06`, `C54_gsw`, `C54_jmd95_resolves`, `C54_jmdfwg06_resolves`, `C54_gsw_resolves` | IEEE 754 binary64 (SpecFloat, round to nearest even), no fused multiply-add and no reassociation; salinity derivatives for s > 0; first derivatives only. gsw accepts any s <= 42, negative values being clamped. |
| C55 | Brent's method in double precision | proved | `C55_brent_binary64`, `C55_root_of_real_function`, `C55_no_sign_change` | IEEE 754 binary64 (SpecFloat, round to nearest even), no fused multiply-add and no reassociation. That end values of the same sign always give NaN is false when their product underflows: C01_brent_no_sign_change_f64_refuted. |
| C56 | Search for a bracket in double precision | proved | `C56_guess_to_bounds_binary64`, `C56_brent_guess_binary64`, `C56_always_ends_refuted` | As C55. Guesses closer than 2^-1000 to, but not at, an end of the range are excluded; for one of them the search is shown never to end. |
| C57 | Surfaces in double precision | proved | `C57_potential`, `C57_anomaly`, `C57_omega`, `C57_accuracy`, `C57_linear`, `C57_pchip`, `C57_fresh_water_refuted` | IEEE 754 binary64 (SpecFloat, round to nearest even), no fused multiply-add and no reassociation. For omega surfaces the starting guess must not be within 2^-1000 dbar of, but not at, an end of the column. Salinities between 0 and 0.001 are excluded for jmd95 and jmdfwg06 (C57_fresh_water_refuted shows why zero must be); gsw has no such limit. |
| C58 | Neutral trajectories in double precision | proved | `C58_link`, `C58_trajectory` | As C57. |
| C59 | Potential density and anomaly surfaces in double precision, whole function | proved | `C59_potential`, `C59_anomaly`, `C59_potential_pinned`, `C59_anomaly_pinned` | As C57. diags=False; pin_cast an int or a tuple (labels: C52, in exact arithmetic); isovalues at most the bound B on the values of the equation of state. |
| C60 | Arguments of periodic dimensions, and interpolants at hand | proved | `C60_wrap_names`, `C60_wrap_flags`, `C60_wrap_missing`, `C60_wrap_result`, `C60_wrap_raises`, `C60_wrap_unknown_refuted`, `C60_wrap_tuple_refuted`, `C60_interp_again`, `C60_interp_given`, `C60_interp_shape`, `C60_interp_reuse_refuted` | The two claims in square brackets are refuted on the model. Objects other than strings in wrap are represented by their truth value. |
| C61 | Density by the C library | proved | `C61_gswc` | The C library is a parameter with the contract teos_library. |
| C62 | Neutrality errors in double precision | proved | `C62_errors`, `C62_left_to_right`, `C62_diagnostics`, `C62_potential`, `C62_anomaly` | As C57; salinity positive. C62_errors holds for every order of summation (numpy's np.sum adds pairwise); C62_diagnostics, C62_potential and C62_anomaly are about the model's left to right sums. C62_diagnostics covers every choice of reference, isovalue and pinning point: asking for diagnostics adds the norms and changes nothing else. |
| C63 | Wetting searches in double precision | proved | `C63_search`, `C63_perimeter`, `C63_water_refuted` | As C57. The claim in square brackets is refuted on the model: a bottle added by the second search can have a finite pressure, just below its cast, with NaN salinity and temperature. C63_perimeter asks that the columns stay 1 dbar above the greatest pressure of the range. |
| C64 | Interpolation of whole arrays and on the fly in double precision | proved | `C64_linear`, `C64_pchip`, `C64_linear_coefficients`, `C64_pchip_coefficients`, `C64_columns` | C64_columns asks that temperature has data exactly where salinity has (same_extent). |
| C65 | Linear problems of omega surfaces in double precision | proved | `C65_systems` | As C62. What the solvers of scipy return is not claimed here, only what they are given and what is done with it. |
| C66 | Omega surfaces in double precision | proved | `C66_run`, `C66_entry` | As C65. The solvers of scipy are arbitrary functions returning arrays of the right size. Sums are from left to right. |
| C67 | Entry points of traj.py | proved | `C67_link`, `C67_trajectory`, `C67_defaults`, `C67_outside`, `C67_nan_start`, `C67_refused`, `C67_not_a_sequence`, `C67_no_casts`, `C67_link64`, `C67_trajectory64`, `C67_outside64`, `C67_nan_start64` | Exact real arithmetic, and binary64 as in C58. For a start outside the first cast, p0 must be within the range of the equation of state. |
| C68 | The mixed layer in double precision | proved | `C68_stable`, `C68_linear` | As C57. C68_linear is about linear interpolation of arbitrary profiles; thresholds within d of the excess at the first or the last level of the block are not covered, for there a division by zero is possible (C44_total_refuted). |
| C69 | Static stability in double precision | proved | `C69_count`, `C69_stabilize`, `C69_none_unstable` | As C57, except gsw (not an equation of state for density). scipy's minimize is an arbitrary function that, when it reports success, returns numbers that meet the constraints within eps, as evaluated in binary64. |
| C70 | Veronis density in double precision | proved | `C70_accuracy`, `C70_explicit`, `C70_increasing`, `C70_outside` | As C57. Linear interpolation only. numpy.linspace and trapz as in C43. In C70_accuracy f and g, the partial derivatives along the cast, are continued continuously beyond the cast; C70_explicit assumes nothing of them and has a number for every bound. |
