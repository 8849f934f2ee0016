{"id": "C01", "title": "Brent root finder: sound, total, never divides by zero", "statement": "For every real function f, every a <= b with f(a)*f(b) <= 0 and every tolerance t > 0, `brent(f, a, b, t)` terminates, raises no ZeroDivisionError, and returns a point x in [a,b] with either f(x) = 0 or another point c in [a,b], |x - c| <= 2*(2*eps*|x| + t), at which f has the opposite sign; hence a continuous f has an exact root within that distance. It returns NaN exactly when the range is invalid (NaN bound or a > b) or f(a)*f(b) > 0.", "quantifier": "all functions f, all brackets, all positive tolerances", "why_tests_cant": "The number of iterations and the interpolation/bisection choice depend on f; no finite set of test functions covers the adversarial ones for which a step could leave the bracket, divide by zero or fail to make progress.", "anchors": ["neutralocean/fzero.py: brent"]}
{"id": "C02", "title": "guess_to_bounds: the bracket is valid and complete", "statement": "For every f, every A <= B and every non-NaN initial guess x (inside or outside [A,B]), `guess_to_bounds(f,x,A,B)` returns either (A,A) with f(A)=0, or (B,B) with f(B)=0, or (a,b) with A <= a <= b <= B and (f(a)>0) != (f(b)>0), or (NaN,NaN); and it returns (NaN,NaN) only if f(A) and f(B) are both non-zero with the same sign. In particular it always succeeds when f changes sign between A and B.", "quantifier": "all f, all bounds, all guesses", "why_tests_cant": "The sample points depend on the guess; a test can check chosen f but not that no sign change between the end points is ever missed.", "anchors": ["neutralocean/fzero.py: guess_to_bounds"]}
{"id": "C03", "title": "guess_to_bounds terminates for a numeric guess, within a fixed number of expansions; and hangs for a NaN guess", "statement": "For A <= B and a non-NaN guess the outward search terminates after at most 13 expansions whatever f is. (For a NaN guess the documented call never returns: e.g. `ntp_bottle_to_cast` with pB = NaN loops forever.)", "quantifier": "all f, all bounds, all guesses; for the NaN guess all numbers of loop iterations", "why_tests_cant": "Non-termination can never be observed by a test; a uniform bound on the iteration count is a statement about all f.", "anchors": ["neutralocean/fzero.py: guess_to_bounds", "neutralocean/traj.py: ntp_bottle_to_cast"]}
{"id": "C04", "title": "brent_guess: root search from a guess", "statement": "For all f, A <= B, non-NaN guess x and t > 0, `brent_guess(f,x,A,B,t)` terminates without exception and returns NaN or a point of [A,B] which is a zero of f or within 2*(2*eps*|x|+t) of a point of [A,B] where f has opposite sign. It never returns NaN when f(A), f(B) have opposite signs or one is zero.", "quantifier": "all f, bounds, guesses, tolerances", "why_tests_cant": "Composition of two searches with different sign conventions (f > 0 versus f*f <= 0); a mismatch shows only for particular sign patterns.", "anchors": ["neutralocean/fzero.py: brent_guess, brent, guess_to_bounds"]}
{"id": "C05", "title": "Documented accuracy of neutral tangent plane links", "statement": "The documentation of `ntp_bottle_to_cast` states: within `tol_p` of the returned pressure there is a point on the cast where the two potential densities are exactly equal. (The code guarantees only 2*(2*eps*|p| + tol_p): the documented bound is violated.)", "quantifier": "all casts, bottles, equations of state and tolerances", "why_tests_cant": "The worst case needs an adversarial density function; random tests land well within tolerance.", "anchors": ["neutralocean/traj.py: ntp_bottle_to_cast docstring", "neutralocean/fzero.py: brent"]}
{"id": "C06", "title": "Valid data range of a cast", "statement": "`valid_range_1(X)` returns (k,K) such that k is the index of the first finite entry, X[k..K-1] contains no NaN, and K is maximal (K = len(X) or X[K] is NaN); it is (len,len) iff there is no finite entry. `valid_range_1_two(X,Y)` does the same for entries where both are finite / neither is NaN.", "quantifier": "all arrays, all NaN and infinity patterns", "why_tests_cant": "Exponentially many NaN patterns; all vertical code relies on this range.", "anchors": ["neutralocean/ppinterp/lib.py: valid_range_1, valid_range_1_two"]}
{"id": "C07", "title": "pval evaluates the polynomial and all its derivatives", "statement": "For every coefficient row C (any order), every x and every d >= 0, `pval(x, C, d)` equals the d-th derivative at x of the polynomial with coefficients C (highest power first).", "quantifier": "all degrees, all coefficients, all x, all derivative orders", "why_tests_cant": "An inductive statement over polynomial order and derivative order.", "anchors": ["neutralocean/ppinterp/ppinterp.py: pval"]}
{"id": "C08", "title": "Evaluation of piecewise polynomials: where NaN is returned and which piece is used", "statement": "For every cast with strictly increasing X on its valid range [k,K), `ppval_1`, `ppval_1_two`, `ppinterp_1` and `ppinterp_1_two` return NaN if x is NaN, x < X[k], x > X[K-1], or fewer than two valid points; otherwise they evaluate the piece i with X[i] < x <= X[i+1] (i = k when x = X[k]), never reading outside the array.", "quantifier": "all casts with leading/trailing NaNs, all evaluation sites including knots and end points", "why_tests_cant": "Boundary handling at every knot, every NaN pattern; out-of-bounds reads are silent in compiled code.", "anchors": ["neutralocean/ppinterp/ppinterp.py: ppval_1, ppval_1_two, ppval_1_nonan, ppval_1_nonan_two, ppinterp_1, ppinterp_1_two"]}
{"id": "C09", "title": "Linear interpolant is correct everywhere", "statement": "For all strictly increasing X and all Y, the linear interpolant returned by `linear_interp` (and by `linear_coeffs` + `ppval`) at x in [X[i],X[i+1]] equals Y[i] + (x-X[i])*(Y[i+1]-Y[i])/(X[i+1]-X[i]): it reproduces the data at knots, is continuous, and lies between the neighbouring data.", "quantifier": "all data, all evaluation sites", "why_tests_cant": "Universally quantified over real data.", "anchors": ["neutralocean/ppinterp/linear.py: linear_coeffs_1, _linear_coeffs_i", "neutralocean/ppinterp/ppinterp.py"]}
{"id": "C10", "title": "PCHIP interpolates and is continuously differentiable", "statement": "For all strictly increasing X and all Y with at least two valid points, the PCHIP interpolant reproduces Y at every knot, and value and first derivative agree from both sides at each interior knot.", "quantifier": "all data sets, all knots", "why_tests_cant": "Slope formula has several cases (ends, sign changes, flat pieces, two points); all combinations for all data.", "anchors": ["neutralocean/ppinterp/pchip.py: _pchip_coeffs_1"]}
{"id": "C11", "title": "PCHIP is shape preserving", "statement": "On every interval the PCHIP interpolant is monotone: it stays between the data values at the interval's two ends (no overshoot), for all data.", "quantifier": "all data sets, all intervals, all evaluation sites", "why_tests_cant": "A nonlinear inequality over all data; sampling cannot exclude an overshoot.", "anchors": ["neutralocean/ppinterp/pchip.py: _pchip_coeffs_1, _pchip_coeffs_i"]}
{"id": "C12", "title": "PCHIP never divides by zero", "statement": "For strictly increasing X and any Y neither `pchip_coeffs` nor `pchip_interp` raises ZeroDivisionError (the claim in the code comment 'guaranteed to not divide by zero').", "quantifier": "all data sets", "why_tests_cant": "Depends on the exact vanishing of slope combinations.", "anchors": ["neutralocean/ppinterp/pchip.py"]}
{"id": "C13", "title": "On-the-fly interpolation equals interpolation from precomputed coefficients", "statement": "For every cast without infinities and every x and d, `ppinterp_1(coeffs_i, x, X, Y, d)` equals `ppval_1(x, X, coeffs(X,Y), d)`, for both linear and PCHIP, bit for bit in IEEE arithmetic (only commutativity of addition is used).", "quantifier": "all casts, NaN patterns, sites, derivative orders, in any commutative-addition arithmetic including binary64", "why_tests_cant": "Two separately written implementations; the case splits at block ends are selected by NaN patterns.", "anchors": ["neutralocean/ppinterp/pchip.py: _pchip_coeffs_1, _pchip_coeffs_i", "neutralocean/ppinterp/linear.py", "neutralocean/ppinterp/ppinterp.py"]}
{"id": "C14", "title": "Two-variable interpolation equals two single interpolations", "statement": "`ppinterp_1_two` and `ppval_1_two` return the pair of the single-variable results whenever the two dependent variables have the same NaN structure.", "quantifier": "all casts, sites, derivative orders", "why_tests_cant": "Equality of two implementations on all inputs.", "anchors": ["neutralocean/ppinterp/ppinterp.py: ppinterp_1_two, ppval_1_two"]}
{"id": "C15", "title": "make_pp dispatch is total and names only existing functions", "statement": "For every combination of arguments `make_pp` either raises ValueError (for unsupported values) or resolves to a function that exists in the chosen module and has the documented kind.", "quantifier": "all argument combinations, all strings", "why_tests_cant": "Resolution happens through constructed attribute names; a missing name surfaces only when that combination is requested.", "anchors": ["neutralocean/ppinterp/tools.py: make_pp"]}
{"id": "C16", "title": "diff_1d_samesize is insensitive to its out-of-range read", "statement": "`diff_1d_samesize(x)` reads one element past the end of x, but for every non-empty x the result is x[i+1]-x[i] with NaN last, whatever that read returns. (For an empty array it writes out of bounds.)", "quantifier": "all arrays, all values of adjacent memory", "why_tests_cant": "Undefined reads are not reproducible by tests.", "anchors": ["neutralocean/ppinterp/lib.py: diff_1d_samesize"]}
{"id": "C17", "title": "Connected component search is exact", "statement": "`bfs_conncomp1(indptr, indices, root, good)` returns, without repetition and starting with root, exactly the nodes reachable from root through good nodes (nothing if root is not good); afterwards `good` is true exactly for the good nodes not in the component; no array access is out of range and the loop terminates.", "quantifier": "all graphs, all masks, all roots", "why_tests_cant": "Reachability is a property of all paths in all graphs.", "anchors": ["neutralocean/bfs.py: bfs_conncomp1"]}
{"id": "C18", "title": "BFS order", "statement": "The nodes returned by `bfs_conncomp1` are in order of non-decreasing graph distance from root, every node after the first being a neighbour of an earlier one.", "quantifier": "all graphs, masks and roots", "why_tests_cant": "Property of the queue discipline over all graphs.", "anchors": ["neutralocean/bfs.py: bfs_conncomp1"]}
{"id": "C19", "title": "Edges to CSR adjacency is exact", "statement": "For any edge list (a,b) with indices below N, `edges_to_csr` returns indptr, indices such that for each node m the slice indices[indptr[m]:indptr[m+1]] is exactly the list of opposite end points of the edges at m in edge order (self loops twice), indptr is the prefix sum of the degrees and has last element 2E; the adjacency is symmetric; no access is out of range.", "quantifier": "all edge lists and N", "why_tests_cant": "In-place shifting of indptr must be right for every degree sequence, including isolated and last nodes.", "anchors": ["neutralocean/grid/graph.py: edges_to_csr"]}
{"id": "C20", "title": "Rectilinear grid adjacency", "statement": "`rectilinear.build_grid((ni,nj), periodic)` produces edges between in-range nodes; two cells are joined by an edge iff they differ by one in exactly one coordinate (modulo the size in periodic directions), the number of edges is (ni - [not periodic i])*nj + ni*(nj - [not periodic j]), and no undirected pair is repeated when periodic sizes exceed 2.", "quantifier": "all grid sizes (including 0, 1, 2), all periodicity combinations", "why_tests_cant": "All sizes.", "anchors": ["neutralocean/grid/rectilinear.py: _build_edges"]}
{"id": "C21", "title": "Edge data alignment and round trip on rectilinear grids", "statement": "The k-th entry of dist/distperp built by rectilinear `_build_edgedata` belongs to the k-th edge of `_build_edges`; and `edgedata_to_maps` returns for each cell the value on its west/south edge, NaN exactly at walls, i.e. inverts `_build_edgedata`.", "quantifier": "all sizes, periodicities and data", "why_tests_cant": "Index algebra for all sizes.", "anchors": ["neutralocean/grid/rectilinear.py: _build_edgedata, edgedata_to_maps"]}
{"id": "C22", "title": "Tripolar grid adjacency and edge data", "statement": "`tripolar.build_grid((nj,ni))` joins each cell with its zonal (periodic) and meridional neighbours and, on the last row, cell i with cell ni-1-i; edge data are aligned with edges, and `edgedata_to_maps` inverts. Also checked: whether each pair is listed once (it is not: each fold pair is listed twice), and whether metrics with the documented padding (nj+1, ni+2) are accepted (they are rejected).", "quantifier": "all sizes and data", "why_tests_cant": "Fold index algebra for all ni parities.", "anchors": ["neutralocean/grid/tripolar.py: _build_edges, _build_edgedata, edgedata_to_maps"]}
{"id": "C23", "title": "xgcm grid: edge geometry belongs to the edge", "statement": "In the grid built by `xgcm.build_grid`, the entry of dist (distperp) for an edge in the i direction must come from dxC (dyG), for an edge in the j direction from dyC (dxG). (It is the other way round in the code.) Trimmed edges have both ends in range; `edgedata_to_maps` puts each edge value back at its cell.", "quantifier": "all grids and metric fields", "why_tests_cant": "Test data use equal or constant metrics, for which a swap is invisible.", "anchors": ["neutralocean/grid/xgcm.py: build_grid, edgedata_to_maps, _build_im1_jm1"]}
{"id": "C24", "title": "Grid from a graph: each adjacent pair exactly once", "statement": "`graph.build_grid` applied to matrices with common symmetric structure yields every unordered adjacent pair exactly once, with the matching matrix values.", "quantifier": "all matrices", "why_tests_cant": "All sparsity structures.", "anchors": ["neutralocean/grid/graph.py: build_grid, triu_if_sym, sym_structure"]}
{"id": "C25", "title": "Discrete divergence conserves", "statement": "For any edge list, flux and positive areas, sum over nodes of area*divergence is zero, divergence is linear in the flux, and at each node equals (outgoing - incoming flux)*distperp/area with out = first node of the edge.", "quantifier": "all graphs, fluxes, areas", "why_tests_cant": "Identity over all graphs.", "anchors": ["neutralocean/grid/tools.py: divergence", "neutralocean/lib.py: aggsum"]}
{"id": "C26", "title": "take_fill, aggsum, find_first_nan and val_at index conventions", "statement": "`take_fill(a,idx)` returns a[idx[i]] or the fill value for negative idx; `aggsum(a,idx,n)` returns for each j the sum of a[i] over idx[i]=j; `find_first_nan` returns for each cast the least NaN index or the cast length; `val_at(T,k)` returns T[...,k] or NaN for negative k and leaves T unchanged. (The last two claims fail for an integer k < 0 and for singleton horizontal dimensions.)", "quantifier": "all arrays and index arrays", "why_tests_cant": "All shapes and NaN patterns; aliasing effects on the input are not visible in returned values.", "anchors": ["neutralocean/lib.py: take_fill, aggsum, find_first_nan, val_at"]}
{"id": "C27", "title": "Casts are laid out correctly whatever the vertical dimension", "statement": "`_process_casts(S,T,P,vert_dim)` returns arrays whose last axis is the vertical one and whose element for horizontal index h and level k is the input element with k inserted at vert_dim (P broadcast along the vertical when 1D); for DataArrays the output container dims equal the input dims without vert_dim, in the order of the output data.", "quantifier": "all ranks, shapes, vert_dim values", "why_tests_cant": "All ranks and permutations.", "anchors": ["neutralocean/lib.py: _process_casts, _contiguous_casts, _process_vert_dim, _xrs_in, _xr_out"]}
{"id": "C28", "title": "pin_cast given as a dict selects the cast S.sel(pin_cast)", "statement": "A pin cast given by labels must denote the cast with these labels irrespective of the order in which they are listed. (The code uses the dict order as index order.)", "quantifier": "all label dicts and dimension orders", "why_tests_cant": "Tests use one ordering.", "anchors": ["neutralocean/lib.py: _process_pin_cast"]}
{"id": "C29", "title": "NTP link: bottle to cast", "statement": "For every equation of state (real function), every cast and bottle and tolerance, `_ntp_bottle_to_cast` returns s,t,p all NaN or: p lies within the cast's valid pressure range, s and t are the interpolants at p, and the potential density difference referenced to the mid pressure is zero at p or has the opposite sign somewhere within 2*(2 eps |p| + tol_p) in the cast. It is non-NaN whenever the difference has opposite signs at the cast's two ends. Links to casts with fewer than two valid points are NaN.", "quantifier": "all equations of state, casts, bottles, tolerances, interpolants", "why_tests_cant": "Universally quantified over user-supplied functions and data.", "anchors": ["neutralocean/traj.py: _ntp_bottle_to_cast, _ntp_bottle_to_cast_ppc, _pot_dens_diff"]}
{"id": "C30", "title": "Neutral trajectory", "statement": "`neutral_trajectory` returns s,t,p of the length of the sequence with p[0]=p0; every link c-1 -> c is the NTP link of the previous bottle; once a link fails all later entries are NaN.", "quantifier": "all sequences of casts of any length", "why_tests_cant": "Induction over the number of casts.", "anchors": ["neutralocean/traj.py: neutral_trajectory"]}
{"id": "C31", "title": "Wetting BFS (bfs_conncomp1_wet)", "statement": "After `bfs_conncomp1_wet` the returned queue is duplicate free, starts at root, every wet node reachable from root is in it, only previously dry candidates have had s,t,p changed, each newly wet cast was reached by a successful NTP link from a cast in the queue and lies below its own mixed layer, and the returned count is the number of newly wet casts. (The documented 'at most one NTP calculation per dry cast' fails.)", "quantifier": "all graphs, surfaces, casts, NTP outcomes", "why_tests_cant": "All graphs and histories of link success/failure.", "anchors": ["neutralocean/bfs.py: bfs_conncomp1_wet"]}
{"id": "C32", "title": "Perimeter wetting (bfs_conncomp1_wet_perim)", "statement": "The returned queue is exactly the duplicate-free set of nodes of the final component, the shared forward/backward work array never overlaps or overflows, casts outside the component get p = NaN, a newly wet cast lies below its own mixed layer, and the result is insensitive to the order of neighbours. (The last two documented claims fail: the mixed layer of the wrong cast is consulted, and casts wetted earlier in the same pass are used.)", "quantifier": "all graphs, surfaces, n_rep, NTP outcomes, neighbour orders", "why_tests_cant": "All graphs; order-sensitivity needs adversarial geometry.", "anchors": ["neutralocean/bfs.py: bfs_conncomp1_wet_perim"]}
{"id": "C33", "title": "Potential density / specific volume anomaly surface solves its equation on every cast", "statement": "On every cast `_vertsolve` gives s,t,p jointly NaN or p within the cast's valid range, s,t the interpolants at p, and eos(s,t,ref) - isoval (or the anomaly analogue) vanishing at p or changing sign within 2*(2 eps|p|+tol_p); it is non-NaN whenever the function has opposite signs at the cast ends.", "quantifier": "all equations of state, casts, reference values, initial guesses", "why_tests_cant": "Universally quantified.", "anchors": ["neutralocean/surface/_vertsolve.py: _vertsolve, _zero_potential, _zero_anomaly"]}
{"id": "C34", "title": "Isopycnal reference values and pinning", "statement": "`_check_ref` accepts exactly the documented argument combinations; the surface has exactly p = pin_p at the pin cast whenever pin_cast and pin_p select it; pin_cast/pin_p have no effect when ref and isoval are both given. (The last documented claim fails.)", "quantifier": "all argument combinations", "why_tests_cant": "Combination space with None-able arguments; failures only when redundant arguments are supplied.", "anchors": ["neutralocean/surface/isopycnal.py: _isopycnal, _check_ref, _choose_ref_isoval"]}
{"id": "C35", "title": "Omega vertical update", "statement": "On every cast `_vertsolve_omega` leaves p unchanged up to tolerance when the density perturbation is zero, gives s,t,p jointly NaN when it is NaN or the cast has fewer than two valid points, otherwise p in the valid range with eos(s(p),t(p),p_old) - eos(s,t,p_old) - phi changing sign within tolerance.", "quantifier": "all equations of state, casts, perturbations", "why_tests_cant": "Universally quantified.", "anchors": ["neutralocean/surface/_vertsolve.py: _vertsolve_omega"]}
{"id": "C36", "title": "Omega matrix problem: well posed, pinned, least squares", "statement": "For any component connected through edges of positive weight the Poisson matrix is symmetric positive definite; its solution is unique, vanishes exactly at the pinned cast, minimises sum w*(phi_b - phi_a + e)^2, and coincides with the minimiser of the gradient (lsqr) formulation.", "quantifier": "all graphs, weights, errors", "why_tests_cant": "Linear algebra over all graphs.", "anchors": ["neutralocean/surface/omega.py: _omega_matsolve_poisson, _omega_matsolve_gradient, _omega_matsolve_helper"]}
{"id": "C37", "title": "Omega driver loop", "statement": "`omega_surf` performs at most ITER_MAX and, unless ITER_MAX is smaller, at least ITER_MIN iterations, stops early only if a convergence criterion holds, wets only in the iterations selected by ITER_START_WETTING/ITER_STOP_WETTING, keeps p at the pin cast equal to pin_p, and returns diagnostics for every iteration performed. (The last claim fails: the last iteration's entries are trimmed; a pin cast inside the mixed layer crashes the second iteration; ITER_MAX = 0 with diagnostics raises.)", "quantifier": "all option values, all histories of per-iteration results", "why_tests_cant": "All execution histories.", "anchors": ["neutralocean/surface/omega.py: omega_surf"]}
{"id": "C38", "title": "Epsilon neutrality errors", "statement": "The error on an edge is antisymmetric under swapping its ends, zero between identical water, NaN if an end is NaN; the norms satisfy 0 <= MAV <= RMS, ignore NaN edges, and are invariant under edge reversal and permutation; missing distances default to 1. (The last documented claim fails: KeyError.)", "quantifier": "all surfaces, graphs, equations of state", "why_tests_cant": "Inequality/identity over all data.", "anchors": ["neutralocean/ntp.py: ntp_epsilon_errors, ntp_epsilon_errors_norms, _ntp_epsilon_error1"]}
{"id": "C39", "title": "JMD95 equation of state: analytic derivatives are the derivatives", "statement": "For every s > 0, t, p with non-vanishing denominator the outputs of jmd95 rho_s_t and rho_p are the exact partial derivatives of jmd95 rho with respect to s, t, p.", "quantifier": "all real s > 0, t, p", "why_tests_cant": "Finite-difference tests check a handful of points to a few digits; a wrong small coefficient is invisible.", "anchors": ["neutralocean/eos/jmd95.py: rho, rho_s_t, rho_p"]}
{"id": "C40", "title": "JMDFWG06 equation of state: analytic derivatives are the derivatives", "statement": "For every s > 0, t, p with non-vanishing denominator the outputs of jmdfwg06 rho_s_t and rho_p are the exact partial derivatives of jmdfwg06 rho.", "quantifier": "all real s > 0, t, p", "why_tests_cant": "As for JMD95.", "anchors": ["neutralocean/eos/jmdfwg06.py: rho, rho_s_t, rho_p"]}
{"id": "C41", "title": "GSW specific volume: all first, second and third derivatives are the derivatives", "statement": "For every SA > 0 (SA >= 0 for t and p derivatives), CT, p, each of the nineteen derivative functions in gsw.py is the exact partial derivative of specvol / of the lower-order derivative. (For SA < 0 the function is clamped but its SA derivative is not, so there the claim fails.)", "quantifier": "all real SA, CT, p", "why_tests_cant": "48- to 76-term polynomials; tests compare a few points against tabulated values for few of the derivatives.", "anchors": ["neutralocean/eos/gsw.py"]}
{"id": "C42", "title": "Boussinesq conversion", "statement": "`make_eos(eos, grav, rho_c)` evaluates the equation of state at p = 1e-4*grav*rho_c*z, and the functions made by `make_eos_s_t`/`make_eos_p` are the partial derivatives of that composite with respect to s, t and z; without both constants the function is unchanged.", "quantifier": "all equations of state and constants", "why_tests_cant": "Chain rule for arbitrary functions.", "anchors": ["neutralocean/eos/tools.py: make_bsq, _make_eos, make_eos, make_eos_s_t, make_eos_p"]}
{"id": "C43", "title": "Veronis density", "statement": "`veronis` returns the potential density at p0 plus an integral term that is zero for p1 = p0, antisymmetric in (p0,p1), NaN if p0 or p1 is outside the cast, additive over knots, and exact for locally linear S,T (linear interpolation) and an equation of state with constant coefficients.", "quantifier": "all casts, pressures, step sizes", "why_tests_cant": "Identities over all data.", "anchors": ["neutralocean/label.py: veronis, _int_dlrpd_dz, _int_x_k"]}
{"id": "C44", "title": "Mixed layer pressure", "statement": "For a cast whose potential density relative to the reference bottle increases monotonically in the right sense, `mixed_layer` returns NaN or a pressure within the cast lying between the two levels that straddle the threshold, for both density and specific volume equations of state.", "quantifier": "all casts and equations of state", "why_tests_cant": "Universally quantified.", "anchors": ["neutralocean/mixed_layer.py: mixed_layer"]}
{"id": "C45", "title": "Static stability tools", "statement": "`count_unstable` counts exactly the vertically adjacent pairs whose lighter/denser order is wrong, ignoring NaNs; `stabilize_ST` leaves stable casts untouched and, when the optimiser succeeds, makes every pair satisfy the threshold so that none is counted unstable; the user's arrays are updated in place. (The last claim fails when the arrays have to be copied, e.g. vert_dim is not last.)", "quantifier": "all casts, all optimiser outcomes meeting the constraints", "why_tests_cant": "All casts; in-place effect depends on layout.", "anchors": ["neutralocean/stability.py: count_unstable, stabilize_ST"]}
{"id": "C46", "title": "Memoised factories are transparent", "statement": "For every history of calls, functions decorated with lru_cache(maxsize=10) (make_eos, make_bsq, make_pp, vertsolve makers) return what the undecorated function returns, and hold at most 10 entries.", "quantifier": "all call histories", "why_tests_cant": "A property of all histories, including evictions.", "anchors": ["neutralocean/eos/tools.py", "neutralocean/surface/_vertsolve.py", "neutralocean/ppinterp/tools.py"]}
{"id": "C47", "title": "Synthetic ocean", "statement": "`synthocean` returns pressures strictly increasing from 0 to pbot and S,T that are NaN exactly on the walls of non-periodic dimensions.", "quantifier": "all shapes and parameters", "why_tests_cant": "All sizes.", "anchors": ["neutralocean/synthocean.py: synthocean"]}
{"id": "C48", "title": "Matrix of an edge list", "statement": "`edges_to_graph(edges, N, weights)` is the symmetric matrix whose (m,n) entry is the total weight of the edges listed as (m,n) plus those listed as (n,m): the edge's weight for a simple graph, 0 where there is no edge. (The docstring's `G[m,n] = weights[i]` fails for self loops and repeated edges, which are summed.)", "quantifier": "all edge lists and weights", "why_tests_cant": "All graphs, including multigraphs.", "anchors": ["neutralocean/grid/graph.py: edges_to_graph"]}
{"id": "C49", "title": "Binary function on edges", "statement": "`graph_binary_fcn(edges, v, f)` returns f(v[a[i]], v[b[i]]) for the i-th edge without out-of-range access when all labels are valid. (The docstring's NaN for negative labels is false: they count from the end.)", "quantifier": "all graphs, values and functions", "why_tests_cant": "Memory safety is invisible to tests of compiled code.", "anchors": ["neutralocean/grid/graph.py: graph_binary_fcn"]}
{"id": "C50", "title": "Equations of state over the oceanographic range", "statement": "For salinity in [0,42], temperature in [-3,40] and pressure in [0,10000] dbar: no denominator of jmd95, jmdfwg06 or gsw vanishes, so none of their functions raises; density and specific volume are positive; density strictly increases and specific volume strictly decreases with pressure and with salinity.", "quantifier": "all real salinities, temperatures and pressures in the range", "why_tests_cant": "A sign over a three-dimensional box of reals; sampling cannot exclude a zero of a denominator.", "anchors": ["neutralocean/eos/jmd95.py", "neutralocean/eos/jmdfwg06.py", "neutralocean/eos/gsw.py"]}
{"id": "C51", "title": "Geometry of the synthetic ocean", "statement": "The grid returned by `synthocean` is consistent: cell centres are midway between edges, nx zonal widths make up the parallel at their latitude, ny meridional widths make up 140 degrees of a meridian, and the areas of all tracer cells add up to the area of the spherical zone from 80S to 60N, each positive and equal to its part of it; areas centred on southern edges add up to the zone half a cell further south when ny >= 7.", "quantifier": "all positive nx and ny, exact reals with the true sine, cosine and pi", "why_tests_cant": "Sums over grids of every size against a closed formula.", "anchors": ["neutralocean/synthocean.py: synthocean, lines 131-162"]}
{"id": "C52", "title": "Potential density and anomaly surfaces, whole function", "statement": "`potential_surf` and `anomaly_surf`, called with a named equation of state, labelled or plain data with the vertical axis anywhere, Boussinesq depth or pressure, linear or pchip interpolation, and ref/isovalue or a pinning point given by index, negative index, tuple or labels: they return arrays of the horizontal shape and labels of the data, whose value at each position is NaN or a root, within the tolerance, of the interpolated column there; at the pin it is exactly the pinned water; ref and isovalue reported are those of the water at the pin when not given; the diagnostics are the weighted norms of the neutrality errors of the surface returned. Diagnostics without a grid raise.", "quantifier": "all data in the oceanographic range, all grids, all arguments of these kinds, exact reals with NaN", "why_tests_cant": "The composition of label handling, axis moves, broadcasting, interpolation, root finding and diagnostics over unbounded shapes.", "anchors": ["neutralocean/surface/isopycnal.py: potential_surf, anomaly_surf, _isopycnal", "neutralocean/lib.py: _process_casts, _process_pin_cast, _process_eos, xr_to_np"]}
{"id": "C53", "title": "Omega surfaces, whole function", "statement": "`omega_surf`, called with a named equation of state and exact linear solvers, ends and returns arrays of the horizontal shape and labels of the data; each point is NaN or water of its column; the pinned cast keeps its pressure; the surface is the result of the sequence of iterations from the initial surface described by p_init, each the least squares update of its predecessor, stopping by the documented criteria (tolerance divided by 1e6 for specific volume); the last diagnostics are the norms of the neutrality errors of the surface returned. A dict p_ml means the result of `mixed_layer` with those arguments.", "quantifier": "all data in the oceanographic range, all grids, all options with a Poisson or gradient formulation, exact reals with NaN", "why_tests_cant": "The composition of every part of the package over unbounded shapes and iteration counts.", "anchors": ["neutralocean/surface/omega.py: omega_surf", "neutralocean/lib.py: _process_casts, _process_pin_cast, _process_eos, xr_to_np", "neutralocean/mixed_layer.py: mixed_layer"]}
{"id": "C54", "title": "Rounding errors of the equations of state", "statement": "Evaluated in IEEE double precision with the operations and literals of the source, jmd95, jmdfwg06 and gsw return finite numbers without exceptions for all ocean water, within stated absolute errors (about 1e-12 relative) of the exact polynomials and of their exact partial derivatives; computed density is strictly increasing (specific volume strictly decreasing) between any two pressures at least 2e-8 dbar apart.", "quantifier": "all binary64 salinities in 0..42, temperatures in -3..40, pressures in 0..10000 dbar; scalar and array division", "why_tests_cant": "There are about 2^150 inputs; the error of hundreds of roundings is only seen by chance when sampling.", "anchors": ["neutralocean/eos/jmd95.py", "neutralocean/eos/jmdfwg06.py", "neutralocean/eos/gsw.py"]}
{"id": "C55", "title": "Brent's method in double precision", "statement": "Run in IEEE double precision, `brent` neither raises nor overflows nor loops for ever, whatever its interpolation steps compute: given finite a <= b and a positive tolerance t, all of ordinary magnitude, and a function returning finite numbers between a and b whose end values do not have the same sign, it ends within 5(b-a)/t+1 passes and returns a number x between a and b at which the computed function is zero or has the other sign than at a number within 2(2 eps |x| + t)(1+2^-50) of x. If the computed function is within delta of a continuous function g, then |g| <= delta somewhere within that distance of x. End values of the same sign whose product does not underflow give NaN.", "quantifier": "all functions of binary64 numbers, all binary64 a, b, t with |a|, |b| <= 2^900 and 2^-900 <= t <= 2^900", "why_tests_cant": "The interpolation steps may compute infinities and NaN; no test covers all functions and all roundings.", "anchors": ["neutralocean/fzero.py: brent, lines 43-149"]}
{"id": "C56", "title": "Search for a bracket in double precision", "statement": "Run in IEEE double precision, `guess_to_bounds` ends within 13 passes for every finite guess (clamped to the range) and returns an end point at which the computed function is zero, or a range around the guess across which its sign differs, or NaNs when the sign is the same at both ends; `brent_guess` then finds a root as `brent` does, or returns NaN when there is no change of sign. The guess, once clamped, must be equal to each end of the range or at least 2^-1000 from it. [Without this the claim that the search always ends is false: a guess fifty times the smallest positive number from an end makes it loop for ever, although the code has a test meant to exclude that.]", "quantifier": "all functions of binary64 numbers, all binary64 guesses, all ranges with ends up to 2^900 in magnitude", "why_tests_cant": "Termination depends on rounding at every step of a geometric growth; the failing guesses are below any sampled number.", "anchors": ["neutralocean/fzero.py: guess_to_bounds, lines 153-243; brent_guess, lines 13-39"]}
{"id": "C57", "title": "Surfaces in double precision", "statement": "Run in IEEE double precision with a named equation of state of pressure, or of depth with a pressure per unit of depth between 1/2 and 3/2 (known up to rounding), and linear or PCHIP interpolation, the vertical solver of potential density and density anomaly surfaces, and that of omega surfaces, ends without exception on every column of sea water (levels at least 2^-30 dbar apart, salinity at least 0.001 for jmd95 and jmdfwg06) and returns for each column: NaN if there are fewer than two levels of data, or the exact function of the exact interpolants does not change sign, by more than the rounding error d, between the ends of the column; otherwise water within 1e-13 (linear) or 1e-12 (PCHIP) of the exact interpolants at a pressure p inside the column, such that the exact function is within d of zero somewhere within the root finder's tolerance of p. Here d is 3e-12 kg/m3 (jmd95), 9e-12 kg/m3 (jmdfwg06), 2e-17 m3/kg (gsw) for potential density with linear interpolation, 18e-12, 55e-12 and 14e-17 with PCHIP, and twice that for the others. PCHIP interpolation of ordinates of magnitude at most M is within 204 M 2^-53 of the exact PCHIP interpolant, for all levels between 2^-60 and 2^60 apart. Where the function changes at the rate m at least, p is within that tolerance plus d/m of the exact surface. [With salinity down to zero the claim is false for jmd95: interpolation down to fresh water gives a salinity just below zero, whose density is NaN, and the surface is 8 dbar off.]", "quantifier": "all lists of columns of binary64 numbers with NaN where there is no data, all ranges of sea water, all tolerances between 2^-900 and 2^900, all reference values", "why_tests_cant": "Every rounding of the interpolation, the equation of state and the root finder can move the surface; tests compare with other runs of the same roundings.", "anchors": ["neutralocean/surface/_vertsolve.py: _vertsolve, lines 40-79; _vertsolve_omega, lines 82-135; _zero_potential, _zero_anomaly, lines 138-151", "neutralocean/ppinterp/linear.py", "neutralocean/ppinterp/lib.py", "neutralocean/fzero.py"]}
{"id": "C58", "title": "Neutral trajectories in double precision", "statement": "Run in IEEE double precision with a named equation of state of pressure or depth and linear or PCHIP interpolation, `ntp_bottle_to_cast` and `neutral_trajectory` end without exception: every bottle returned is water of its column (within 1e-13, or 1e-12 for PCHIP) at a pressure within the root finder's tolerance of one at which the exact density there, referenced to the mean pressure, differs from the exact density of the water of the previous bottle by at most 6e-12 kg/m3 (jmd95), 1.8e-11 kg/m3 (jmdfwg06) or 4e-17 m3/kg (gsw), or 3.6e-11, 1.1e-10 or 2.8e-16 for PCHIP; it is NaN only if no such change of sign exists on the column, and all bottles after a NaN are NaN.", "quantifier": "all lists of columns of binary64 numbers with NaN where there is no data, top level at a pressure of at least 2^-900, all starting pressures in the first column, all tolerances between 2^-900 and 2^900", "why_tests_cant": "The error at each step must not be amplified by the next; trajectories are unboundedly long.", "anchors": ["neutralocean/traj.py: neutral_trajectory, ntp_bottle_to_cast, _ntp_bottle_to_cast, _ntp_bottle_to_cast_ppc, _pot_dens_diff"]}
{"id": "C59", "title": "Potential density and anomaly surfaces in double precision, whole function", "statement": "`potential_surf` and `anomaly_surf` run in IEEE double precision with eos \"jmd95\", \"jmdfwg06\" or \"gsw\", with or without grav and rho_c, with linear or PCHIP interpolation and without diagnostics, return without exception arrays of the horizontal shape and labels of the data; at each position they hold NaN or water within 1e-13 (PCHIP: 1e-12) of the column at a pressure within the root finder's tolerance of one at which the exact function is within d of zero (d as in the property on surfaces in double precision, for potential density). With a pinning point given by an integer or tuple (negative ones counting from the end) and a pressure, the surface has exactly that pressure there, the reference value and isovalue reported are within d (potential density) or 2d (anomaly) of those of the exact interpolants there when not given, and elsewhere the function is within 2d or 4d of zero for the exact values.", "quantifier": "all arrays of binary64 numbers of any shape, vertical axis anywhere, holding columns of sea water with NaN where there is no data; all tolerances between 2^-900 and 2^900, all reference values and isovalues", "why_tests_cant": "Combines label handling, axis moves, unit conversion and every rounding of the computation; tests compare with other runs of the same roundings.", "anchors": ["neutralocean/surface/isopycnal.py: potential_surf, anomaly_surf, _isopycnal", "neutralocean/surface/isopycnal.py: _check_ref, _choose_ref_isoval", "neutralocean/eos/tools.py: make_eos, make_bsq"]}
{"id": "C60", "title": "Arguments of periodic dimensions, and interpolants at hand", "statement": "`_process_wrap` turns a name, or a tuple or list of names, of the two horizontal dimensions into the pair of flags that are true exactly for the dimensions named; leaves a pair of flags as it is; returns None for None only if diagnostics are not asked for; whatever it returns otherwise has two elements; it raises ValueError or TypeError in exactly the other cases. [Not so: a name that is no dimension is ignored silently; a list with both strings and flags is returned unchanged although a tuple of ints is documented.] `_interp_casts` returns the interpolants of S and T. [It never uses those already provided, although the comment says so: it expects one row less than interpolation gives; coefficients with one row less are used, whatever they are.]", "quantifier": "all arguments, all arrays", "why_tests_cant": "Silent acceptance of wrong names, and recomputation, are not visible in outputs that tests compare.", "anchors": ["neutralocean/lib.py: _process_wrap, lines 312-343; _interp_casts, lines 302-309"]}
{"id": "C61", "title": "Density by the C library", "statement": "If the C library computes the reciprocal of the TEOS-10 specific volume and its partial derivatives, that with respect to pressure per Pa, then `eos/gswc.py` gives density and its derivatives with respect to salinity, temperature and pressure per dbar, consistent with `eos/gsw.py`: rho = 1/v, and each derivative is -v'/v^2 with the derivative v' that `eos/gsw.py` returns.", "quantifier": "all salinities in (0,42], temperatures in -3..40, pressures in 0..10000 dbar, exact reals", "why_tests_cant": "The unit of the pressure derivative enters by a factor 1e4 only; the identity is over a continuum.", "anchors": ["neutralocean/eos/gswc.py", "neutralocean/eos/gsw.py"]}
{"id": "C62", "title": "Neutrality errors in double precision", "statement": "Run in IEEE double precision with eos \"jmd95\", \"jmdfwg06\" or \"gsw\" (of pressure or depth), `ntp_epsilon_errors` returns for every edge between two bottles of sea water a number within b of the exact neutrality error of their waters, b being 2e-11 kg/m3, 3e-11 kg/m3 and 1e-16 m3/kg, even if salinity and temperature are off by 1e-13 (2e-10, 3e-10 and 6e-16 if by 1e-12, as with PCHIP interpolation); divided by a distance d, within 2b/d; and NaN for an edge with a missing bottle. `ntp_epsilon_errors_norms` returns the root mean square and mean absolute value of the exact errors per distance, weighted by area, up to 2b times the same mean of 1/distance and a relative error (n+1) 2^-50 for n edges, whatever the order in which numpy adds; both are 0 if the area is 0. `potential_surf` and `anomaly_surf` with diags=True return the surface they return without, with these norms for the exact water of the columns at the pressures of the surface, and the number of casts with water.", "quantifier": "all lists of bottles and edges (up to 2^40), all distances between 2^-100 and 2^100, widths also 0, all orders of summation; all arrays of binary64 numbers holding columns of sea water", "why_tests_cant": "Cancellation of nearly equal terms decides the size of the errors; the order of summation depends on the machine; tests compare with other runs of the same roundings.", "anchors": ["neutralocean/ntp.py: ntp_epsilon_errors, ntp_epsilon_errors_norms, _ntp_epsilon_error1", "neutralocean/surface/isopycnal.py: _isopycnal"]}
{"id": "C63", "title": "Wetting searches in double precision", "statement": "Run in IEEE double precision with eos \"jmd95\", \"jmdfwg06\" or \"gsw\" (of pressure or depth) and linear or PCHIP interpolation, `bfs_conncomp1_wet` and `bfs_conncomp1_wet_perim` finish without error on columns of sea water. Both return a surface of which every bottle lies on its column up to rounding; bottles that were wet are unchanged. A cast made wet by the first is neutrally connected, up to the tolerance and the rounding error of the density difference, to a bottle of the returned surface at a neighbouring cast. A cast made wet by the second gets a pressure which is, up to rounding, the mean of the pressures of such connections from neighbouring casts, each taken once, [and a salinity and temperature].", "quantifier": "all graphs and surfaces, all columns of sea water held in binary64, all tolerances from 2^-900 to 2^900; degree up to 2^32", "why_tests_cant": "The number of casts made wet and the path taken depend on roundings at the ends of columns; the mean of equal pressures is larger than each of them for few values only.", "anchors": ["neutralocean/bfs.py: bfs_conncomp1_wet, bfs_conncomp1_wet_perim", "neutralocean/traj.py: _ntp_bottle_to_cast"]}
{"id": "C64", "title": "Interpolation of whole arrays and on the fly in double precision", "statement": "Run in IEEE double precision on arrays with NaN where there is no data, `linear_interp_1` and `pchip_interp_1`, and `ppval_1` of the coefficients of `linear_coeffs_1` and `pchip_coeffs_1`, return for every number within the first block of data the exact linear or PCHIP interpolant of that block, up to 2^-49 M or 204 M 2^-53 for ordinates of magnitude at most M, and NaN for every other number, infinite ones and NaN included. The function omega_surf uses to interpolate S and T at the pressure of the pinned cast (`make_pp(interp, kind=\"u\", out=\"interp\", num_dep_vars=2)`) returns water of the column up to 1e-13 (linear) or 1e-12 (PCHIP), or a pair of NaN outside the column.", "quantifier": "all arrays of binary64 numbers, levels between 2^-900 and 2^900 (PCHIP: 2^-60 and 2^60) apart, 2^-90 <= M <= 2^90; all columns of sea water with levels 2^-30 dbar apart", "why_tests_cant": "On the fly, the ends of the block are found again from the data around each piece; agreement and accuracy are over all roundings.", "anchors": ["neutralocean/ppinterp/linear.py: linear_coeffs, _linear_coeffs_i", "neutralocean/ppinterp/pchip.py: pchip_coeffs, _pchip_coeffs_i", "neutralocean/ppinterp/ppinterp.py", "neutralocean/surface/omega.py"]}
{"id": "C65", "title": "Linear problems of omega surfaces in double precision", "statement": "Run in IEEE double precision with eos \"jmd95\", \"jmdfwg06\" or \"gsw\" (of pressure or depth), `_omega_matsolve_poisson` hands to the sparse solver the weighted graph Laplacian of the edges between nodes of the connected component, with 1 added at the pinned node, each entry within (k+3) 2^-51 of the sum of weights at its node, k being the number of edge ends there; its right hand side is the divergence of the exact neutrality errors, within 2b times the sum of weights (b as in C62) and a relative error (k+3) 2^-51 of the sum of magnitudes, and NaN at a node with an edge to water without salinity or temperature. `_omega_matsolve_gradient` hands over one row per edge with plus or minus the square root of its weight, within 2^-50, minus that times the neutrality error on the right, and a last row 0.01 at the pin. Both return an array with NaN at all nodes outside the component, the solution in the right places within, exactly zero at the pin for Poisson, the solution minus its value at the pin for gradient, and zero for a component of one node.", "quantifier": "all surfaces, graphs up to 2^40 edges, node lists in every order, distances between 2^-100 and 2^100, widths also 0, all solvers returning arrays of the right size", "why_tests_cant": "Entries of the matrix are sums over duplicates in an order fixed by sorting; a row or column put in the wrong place, or weights applied twice, still give a plausible smooth surface.", "anchors": ["neutralocean/surface/omega.py: _omega_matsolve_poisson, _omega_matsolve_gradient, _omega_matsolve_helper, lines 477-693", "neutralocean/ntp.py: _ntp_epsilon_error1"]}
{"id": "C66", "title": "Omega surfaces in double precision", "statement": "Run in IEEE double precision with eos \"jmd95\", \"jmdfwg06\" or \"gsw\" (of pressure or depth), linear or PCHIP interpolation and whatever numbers, infinities or NaN the sparse solvers return, `omega_surf` finishes without error on columns of sea water. Every bottle of the surface returned, and of the surface of every iteration, has no pressure, or is water of its column up to rounding, or has a pressure but no salinity and temperature. The pressure at the pin is exactly the given one, in the result and in every iteration. The initial surface is water of the columns at the given pressures, or grown from the pin by neutral connections. In each iteration the mixed layer is removed; casts are made wet as in C63 if wetting is on; the nodes are exactly those connected to the pin; the density perturbation is what the solver makes of the linear problem of C65 for exact neutrality errors of the water of the columns; every bottle moves to the water of its column which has, up to the tolerance and rounding of the density difference, the density perturbed, evaluated at the old pressure; the mean of the magnitudes of the perturbation and the root mean square of the changes of pressure are right up to a relative error (2n+10) 2^-53 for n casts, and iterations stop by the rules of the options; and the diagnostics are the norms of the exact neutrality errors up to the bounds of C62, one entry for each surface, in order. The entry point puts this in arrays of the shape and labels of the input without the vertical dimension, for pins given as list, tuple or integer, initial pressures as number or array, mixed layers as none, array or dictionary.", "quantifier": "all columns of sea water held in binary64 with matching ends of salinity and temperature, all graphs up to 2^31 edges, all distances between 2^-100 and 2^100, all solvers returning arrays of the right size, all options, tolerances from 2^-900 to 2^900", "why_tests_cant": "The driver mixes three searches, two linear problems and a root finder; roundings at column ends decide which bottles are lost; tests cover few datasets and no failing solvers.", "anchors": ["neutralocean/surface/omega.py: omega_surf, lines 24-474", "neutralocean/bfs.py", "neutralocean/surface/_vertsolve.py"]}
{"id": "C67", "title": "Entry points of traj.py", "statement": "`neutral_trajectory(S, T, P, p0, ...)` on a sequence of casts (any layout of the arrays, pressures shared or not; eos \"jmd95\", \"jmdfwg06\" or \"gsw\" of pressure or, with grav and rho_c, of depth; linear or PCHIP interpolation; by default gsw, linear, 1e-4) returns three arrays: first the water of the first cast at p0, then on each cast a bottle which is within the tolerance of water exactly neutral with the bottle before it, or NaN from the first cast where there is none. A p0 outside the first cast gives p0 with NaN salinity and temperature and NaN ever after; p0 NaN gives NaN everywhere. `ntp_bottle_to_cast` finds such a neutral bottle on one cast. Unknown names are refused with ValueError, an eos that is neither a name nor a function with TypeError, data of other than two dimensions with ValueError; no casts give empty arrays. In IEEE double precision the same holds up to the rounding error of the interpolation and of the density difference.", "quantifier": "all shapes and layouts, all columns of sea water, all p0, all tolerances; in double precision levels 2^-30 dbar apart and tolerances from 2^-900 to 2^900", "why_tests_cant": "The documentation promises an exactly neutral point within tol_p; tests use one dataset, and no start outside the cast.", "anchors": ["neutralocean/traj.py: ntp_bottle_to_cast, neutral_trajectory", "neutralocean/lib.py: _process_casts", "neutralocean/eos/tools.py: make_eos", "neutralocean/ppinterp/tools.py: make_pp"]}
{"id": "C68", "title": "The mixed layer in double precision", "statement": "Run in IEEE double precision with eos \"jmd95\", \"jmdfwg06\" or \"gsw\" (of pressure or depth), `mixed_layer` returns for each water column, without error, the pressure at which the potential density exceeds that of the bottle at `bottle_index` by the given threshold. With excesses of potential density known up to d (6e-12, 1.8e-11 or 1.1e-10 kg m-3) the result is: NaN if the bottle has no data, or if there are no other data next to it; for columns in which potential density increases by at least 3 d from level to level, the linear or PCHIP interpolant of the pressures, over excesses in error by at most d, at the threshold, up to 2e-11 or 3e-10 dbar, and NaN if the threshold is outside of these excesses; for linear interpolation and any column, stable or not, a pressure between two neighbouring levels, up to 2e-11 dbar, at which the excess interpolated between these two is the threshold up to d, if the threshold is between the excesses at the first and the last level by more than d, and NaN if it is outside of them by more than d.", "quantifier": "all shapes and layouts of the data, all columns of sea water held in binary64, all thresholds (NaN and infinities included), all reference pressures in the range, all bottle indices other than -1", "why_tests_cant": "Differences of nearly equal densities become the abscissae of an interpolation; neighbouring abscissae may be arbitrarily close, which only a bound on their spacing in binary64 controls.", "anchors": ["neutralocean/mixed_layer.py: mixed_layer, _mixed_layer", "neutralocean/eos/tools.py: make_eos", "neutralocean/ppinterp/ppinterp.py"]}
{"id": "C69", "title": "Static stability in double precision", "statement": "Run in IEEE double precision with eos \"jmd95\" or \"jmdfwg06\" (of pressure or depth): `count_unstable` (without `interp_two`) counts every pair of neighbouring bottles whose upper water is denser, at the mean pressure of the two, by more than d (6e-12 or 1.8e-11 kg m-3), no pair whose upper water is lighter by more than d, no pair with missing data, and every pair of bottles of equal water. `stabilize_ST`, with whatever optimiser that meets the constraints within eps when it reports success, leaves alone casts whose gradients exceed the thresholds by d' (8e-12 or 2e-11 kg m-3) over the difference of pressure; leaves alone levels without data; and makes the gradients of every other cast at least the threshold less eps and less d' over the difference of pressure; casts from the first failure of the optimiser on are not touched, and a failure is reported only for a cast that is not stable by that margin. If the optimiser does not fail and thresholds exceed eps and 1000 (d + d'), `count_unstable` of the result is 0 (casts without gaps).", "quantifier": "all shapes and layouts of the data, all columns of sea water held in binary64 with levels at least 0.001 dbar apart (for the count: any pressures in the range, or none), all thresholds up to 1e6, all optimisers and all starting points", "why_tests_cant": "A threshold is met up to a bound on the rounding of differences of density, which only analysis gives; the optimiser of scipy is called on few profiles in tests.", "anchors": ["neutralocean/stability.py: count_unstable, stabilize_ST, calc_dLRPDdp_fd_1", "neutralocean/eos/tools.py: make_eos", "neutralocean/lib.py: _process_casts"]}
{"id": "C70", "title": "Veronis density in double precision", "statement": "Run in IEEE double precision with eos \"jmd95\", \"jmdfwg06\" or \"gsw\" (of pressure or depth) and linear interpolation, `veronis` returns the potential density of the interpolated water at p0, relative to p_ref, plus b times the integral from p0 to p1 of the gradient of locally referenced potential density (partial derivatives of the exact equation of state, derivatives of the linear interpolants), up to: b times the error M dp^2 / 12 (|p1 - p0| + 2 W) of the trapezoidal rule with step dp, where M bounds the second derivative of the gradient within layers and W the thickness of layers (M can be taken as C L^3 if salinity and temperature change by at most L >= 0.01 per unit of the vertical coordinate, with C = 376, 0.057 and 0.036 for jmd95, 290, 0.072 and 0.053 for jmdfwg06 at salinities of at least 0.001, 1 and 30, and C = 3.4e-7 and 7.2e-8 for gsw at salinities above 0 and of at least 30); the error d of potential density (3e-12, 9e-12 or 2e-17); and b times the variation V + 0.01 of salinity and temperature over the cast times c + (K + 30 + 15000 / dp) r, for K levels, with c = 5e-13, 7e-13 or 4e-18 and r = 6e-16, 3e-15 or 6e-21. Hence the density returned at p1 is greater than that returned at q < p1 where b times the gradient is at least m between q and p1 and the two error bounds add up to less than m (p1 - q). NaN if p0 or p1 is NaN, infinite or outside of the range of a cast without missing levels.", "quantifier": "all casts of sea water held in binary64 with levels at least 0.001 dbar apart, all p0 and p1 in the range in either order, all p_ref of the ocean, all b up to 1e6, all dp from 0.001 to 5000", "why_tests_cant": "The number of quadrature points is computed in floating point and may differ by one from the exact one; rounding errors of thousands of terms have to be bounded against a true integral.", "anchors": ["neutralocean/label.py: veronis, _veronis, _veronis_affine, _int_dlrpd_dz, _int_x_k", "neutralocean/eos/tools.py: make_eos_s_t", "neutralocean/ppinterp/linear.py"]}
