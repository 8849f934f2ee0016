(** * Approximately neutral surfaces and trajectories computed in binary64 *)
From Coq Require Import ZArith Reals List SpecFloat.
From Verif Require Import Num XR SF Res Arr M_ppinterp M_eos_base M_jmd95 M_jmdfwg06 M_gsw M_vertsolve M_traj S_eos S_float S_interp S_fzero S_fzero64
  S_domain S_traj S_vertsolve S_vert64 P_linear64 P_pchip64d P_traj64 Ex_vert64.
Import ListNotations.
Local Open Scope R_scope.

Theorem C57_potential : forall interp ppc rel e, scheme64 interp ppc rel e ->
  forall eos rho s0 pm d B, named64 eos rho s0 pm e d B ->
  forall junk tol : f64, finite64 tol -> tolerance_ok (fval tol) ->
  forall (ref iso : f64) casts casts', finite64 ref -> 0 <= fval ref <= pm -> finite64 iso -> Rabs (fval iso) <= B ->
  Forall2 holds_column casts casts' -> Forall any_cast casts' -> Forall (cast_in (sea s0 pm)) casts' -> Forall column_spaced casts' ->
  exists x, (forall fuel, Forall (enough_fuel64 fuel (fval tol)) casts' ->
      vertsolve (ppc junk) fuel (zero_potential eos ref iso) tol casts = Ok x)
    /\ Forall2 (surface_point64 rel (potential_of rho (fval ref) (fval iso)) (fval tol) e d) casts' x.
Proof. exact potential_named. Qed.
Print Assumptions C57_potential.

Theorem C57_anomaly : forall interp ppc rel e, scheme64 interp ppc rel e ->
  forall eos rho s0 pm d B, named64 eos rho s0 pm e d B ->
  forall junk tol : f64, finite64 tol -> tolerance_ok (fval tol) ->
  forall (sr tr iso : f64) casts casts', finite64 sr -> s0 <= fval sr <= 42 -> finite64 tr -> -3 <= fval tr <= 40 ->
  finite64 iso -> Rabs (fval iso) <= B ->
  Forall2 holds_column casts casts' -> Forall any_cast casts' -> Forall (cast_in (sea s0 pm)) casts' -> Forall column_spaced casts' ->
  exists x, (forall fuel, Forall (enough_fuel64 fuel (fval tol)) casts' ->
      vertsolve (ppc junk) fuel (zero_anomaly eos (sr, tr) iso) tol casts = Ok x)
    /\ Forall2 (surface_point64 rel (anomaly_of rho (fval sr) (fval tr) (fval iso)) (fval tol) e (2 * d)) casts' x.
Proof. exact anomaly_named. Qed.
Print Assumptions C57_anomaly.

Theorem C57_omega : forall interp ppc rel e, scheme64 interp ppc rel e ->
  forall eos rho s0 pm d B, named64 eos rho s0 pm e d B ->
  forall junk tol : f64, finite64 tol -> tolerance_ok (fval tol) ->
  forall (s t p ϕ : f64) vs vt c c', S_float.within s vs e -> dS (sea s0 pm) vs -> S_float.within t vt e -> dT (sea s0 pm) vt ->
  finite64 p -> dP (sea s0 pm) (fval p) -> finite64 ϕ -> fval ϕ <> 0 -> Rabs (fval ϕ) <= B / 2 ->
  holds_column c c' -> any_cast c' -> cast_in (sea s0 pm) c' -> column_spaced c' -> guess_apart (fval p) c' ->
  exists r, (forall fuel, enough_fuel64 fuel (fval tol) c' -> vertsolve_omega_1 eos (ppc junk) fuel tol (s, t, p) c ϕ = Ok r)
    /\ surface_point64 rel (potential_of rho (fval p) (rho vs vt (fval p) + fval ϕ)) (fval tol) e (2 * d) c' r.
Proof. exact omega_named64. Qed.
Print Assumptions C57_omega.

Theorem C57_accuracy : forall rel H tol e d c x, surface_point64 rel H tol e d c x ->
  (short_cast (fst (fst c)) (snd c) /\ x = (nan, nan, nan))
  \/ exists gS gT lo hi, profile rel c gS gT lo hi /\
     let h p := H (gS p) (gT p) p in
     forall m q, 0 < m -> steep m h lo hi -> lo <= q <= hi -> h q = 0 ->
       (exists s t p, x = (s, t, p) /\ Rabs (fval p - q) <= brent_tol (fval p) tol * (1 + powerRZ 2 (-50)) + d / m)
       \/ (x = (nan, nan, nan) /\ (q - lo <= d / m \/ hi - q <= d / m)).
Proof. exact surface_accuracy. Qed.
Print Assumptions C57_accuracy.

Theorem C57_linear : forall junk : f64, interpolator64 (linear_coeffs_1 junk) linear_fun (powerRZ 2 (-30)) 10000 42 (dec 1 (-13)).
Proof. exact linear_sea. Qed.
Print Assumptions C57_linear.

Theorem C57_pchip : forall (junk : f64) M, powerRZ 2 (-90) <= M <= powerRZ 2 90 ->
  interpolator64 (pchip_coeffs_1_nonan junk) pchip_fun (powerRZ 2 (-60)) (powerRZ 2 60) M (204 * (powerRZ 2 (-53) * M)).
Proof. exact pchip_round. Qed.
Print Assumptions C57_pchip.

Theorem C57_fresh_water_refuted : exists c c' fuel (tol : f64) x, finite64 tol /\ tolerance_ok (fval tol)
  /\ holds_column c c' /\ any_cast c' /\ cast_in (sea 0 10000) c' /\ column_spaced c' /\ enough_fuel64 fuel (fval tol) c'
  /\ vertsolve (linear_coeffs_1 (nan : f64)) fuel (zero_potential (jmd95_rho sdiv) (lit 0 0) (lit 1000 0)) tol [c] = Ok [x]
  /\ ~ surface_point64 linear_fun (potential_of jm_rho 0 1000) (fval tol) (dec 1 (-13)) (/ 10) c' x.
Proof. exact fresh_refuted. Qed.
Print Assumptions C57_fresh_water_refuted.

Example C57_columns : Forall2 holds_column [colA; colB] [colA'; colB'] /\ Forall any_cast [colA'; colB']
  /\ Forall (cast_in (sea (/ 1000) 10000)) [colA'; colB'] /\ Forall column_spaced [colA'; colB']
  /\ Forall (enough_fuel64 fuel_ex (fval (lit 1 0 : f64))) [colA'; colB'].
Proof. exact example_columns. Qed.
Example C57_run : vertsolve (linear_coeffs_1 (nan : f64)) fuel_ex (zero_potential (jmd95_rho sdiv) (lit 0 0) (lit 1026 0)) (lit 1 0 : f64) [colA; colB]
  = Ok potential_run_value.
Proof. exact potential_run. Qed.
Example C57_pchip_run : vertsolve (pchip_coeffs_1_nonan (nan : f64)) fuel_ex (zero_potential (jmd95_rho sdiv) (lit 0 0) (lit 1026 0)) (lit 1 0 : f64) [colA; colB]
  = Ok pchip_run_value.
Proof. exact pchip_run. Qed.
Example C57_guess : guess_apart 500 colA'.
Proof. exact colA_guess. Qed.

Theorem C58_link : forall interp ppc rel e, scheme64 interp ppc rel e ->
  forall eos rho s0 pm d B, named64 eos rho s0 pm e d B ->
  forall junk tol : f64, finite64 tol -> tolerance_ok (fval tol) ->
  forall (s t p : f64) vs vt Sc Tc Pc c', S_float.within s vs e -> dS (sea s0 pm) vs -> S_float.within t vt e -> dT (sea s0 pm) vt ->
  finite64 p -> dP (sea s0 pm) (fval p) ->
  holds_column (Sc, Tc, Pc) c' -> any_cast c' -> cast_in (sea s0 pm) c' -> column_spaced c' -> guess_apart (fval p) c' ->
  exists r, (forall fuel, enough_fuel64 fuel (fval tol) c' ->
      ntp_bottle_to_cast_pub eos (ppc junk) fuel s t p Sc Tc Pc tol = Ok r)
    /\ surface_point64 rel (neutral_of rho vs vt (fval p)) (fval tol) e (2 * d) c' r.
Proof. exact link_named. Qed.
Print Assumptions C58_link.

Theorem C58_trajectory : forall interp ppc rel e, scheme64 interp ppc rel e ->
  forall eos rho s0 pm d B, named64 eos rho s0 pm e d B ->
  forall junk tol : f64, finite64 tol -> tolerance_ok (fval tol) ->
  forall fuel (p0 : f64) c1 c' casts casts' k K ss ts ps, finite64 p0 ->
  holds_column c1 c' -> cast (fst (fst c')) (snd (fst c')) (snd c') k K ss ts ps -> (k + 1 < K)%nat ->
  ps k <= fval p0 <= ps (K - 1)%nat -> cast_in (sea s0 pm) c' -> column_spaced c' ->
  Forall2 holds_column casts casts' ->
  Forall (fun c => any_cast c /\ cast_in (sea s0 pm) c /\ column_spaced c /\ starts_below c /\ enough_fuel64 fuel (fval tol) c) casts' ->
  exists x l, neutral_trajectory eos (ppc junk) fuel (c1 :: casts) p0 tol = Ok (x :: l) /\ snd x = p0
    /\ (exists vs vt, sampled rel e c' x vs vt)
    /\ neutral_chain rel rho (fval tol) e (2 * d) c' x casts' l.
Proof. exact trajectory_named. Qed.
Print Assumptions C58_trajectory.

Example C58_columns : cast (fst (fst colA')) (snd (fst colA')) (snd colA') 0 3 (lev [34; 35; 35]%Z) (lev [20; 10; 4]%Z) (lev [10; 500; 2000]%Z)
  /\ lev [10; 500; 2000]%Z 0 <= fval (lit 500 0 : f64) <= lev [10; 500; 2000]%Z 2
  /\ (any_cast colB' /\ cast_in (sea (/ 1000) 10000) colB' /\ column_spaced colB' /\ starts_below colB' /\ enough_fuel64 fuel_ex 1 colB').
Proof. exact trajectory_columns. Qed.
Example C58_run : neutral_trajectory (jmd95_rho sdiv) (linear_coeffs_1 (nan : f64)) fuel_ex [colA; colB] (lit 500 0) (lit 1 0 : f64)
  = Ok trajectory_run_value.
Proof. exact trajectory_run. Qed.
