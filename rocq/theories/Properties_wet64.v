(** * Property C63: the wetting searches of bfs.py in binary64 *)
From Coq Require Import ZArith Reals List SpecFloat.
From Verif Require Import Num XR SF Res Arr M_ppinterp M_eos_base M_jmd95 M_traj M_bfs S_graph S_wet S_eos S_float S_interp S_fzero S_fzero64
  S_domain S_traj S_vertsolve S_vert64 S_omega64 P_wet64 Ex_vert64 Ex_wet64.
Import ListNotations.
Local Open Scope R_scope.

Theorem C63_search : forall interp ppc rel e, scheme64 interp ppc rel e ->
  forall eos rho s0 pm d B, named64 eos rho s0 pm e d B ->
  forall junk0 tol : f64, finite64 tol -> tolerance_ok (fval tol) ->
  forall fuel casts casts', Forall2 holds_column casts casts' -> Forall (column_ok64 s0 pm fuel (fval tol)) casts' ->
  forall p_ml N indptr indices root stp0, csr N indptr indices -> length casts = N -> length p_ml = N -> surface64 rel e pm casts' stp0 ->
  forall junk lf, (root < N)%nat -> (N <= length junk)%nat -> (N < lf)%nat ->
  exists qu new stp, bfs_conncomp1_wet eos (ppc junk0) fuel casts tol p_ml lf junk indptr indices root stp0 = Ok (qu, new, stp)
    /\ surface64 rel e pm casts' stp
    /\ NoDup qu
    /\ (forall n, wet_at stp0 n \/ ~ In n qu -> nth_error stp n = nth_error stp0 n)
    /\ (forall n, In n qu -> ~ wet_at stp0 n -> exists m c c' b vs vt r, In m qu /\ adj indptr indices m n
          /\ nth_error casts' m = Some c /\ nth_error casts' n = Some c' /\ nth_error stp m = Some b /\ nth_error stp n = Some r
          /\ sampled rel e c b vs vt /\ surface_point64 rel (neutral_of rho vs vt (fval (snd b))) (fval tol) e (2 * d) c' r
          /\ exists vs' vt', sampled rel e c' r vs' vt').
Proof. exact wet_named64. Qed.
Print Assumptions C63_search.

Theorem C63_perimeter : forall interp ppc rel e, scheme64 interp ppc rel e ->
  forall eos rho s0 pm d B, named64 eos rho s0 pm e d B ->
  forall junk0 tol : f64, finite64 tol -> tolerance_ok (fval tol) ->
  forall fuel casts casts', Forall2 holds_column casts casts' -> Forall (column_ok64 s0 pm fuel (fval tol)) casts' ->
  Forall (cast_in (sea s0 (pm - 1))) casts' ->
  forall p_ml N indptr indices root stp0, csr N indptr indices -> length casts = N -> length p_ml = N -> surface64 rel e pm casts' stp0 ->
  (forall m, INR (length (listed indptr indices m)) <= powerRZ 2 32) ->
  forall junk n_rep lf, (root < N)%nat -> (N <= length junk)%nat -> (N < lf)%nat ->
  let C := reach (adj indptr indices) (wet_at stp0) root in
  exists D stp, bfs_conncomp1_wet_perim eos (ppc junk0) fuel casts tol p_ml lf junk indptr indices root n_rep stp0 = Ok (length D, stp)
    /\ surface64 rel e pm casts' stp
    /\ NoDup D
    /\ (forall n, C n -> nth_error stp n = nth_error stp0 n)
    /\ (forall n s t p, ~ C n -> ~ In n D -> nth_error stp0 n = Some (s, t, p) -> nth_error stp n = Some (s, t, nan))
    /\ (forall n, In n D -> (n < N)%nat /\ ~ wet_at stp0 n /\ reach (adj indptr indices) (fun y => C y \/ In y D) root n
          /\ wetted64 rel rho (fval tol) e (2 * d) pm casts' (listed indptr indices) stp n).
Proof. exact perim_named64. Qed.
Print Assumptions C63_perimeter.

(** Not every bottle added by the search from the perimeter has a salinity and a temperature: the mean of the
    pressures of three links to the deepest level of a cast can be rounded to a pressure below that level. *)
Theorem C63_water_refuted : exists new p,
  Forall2 holds_column casts4 casts4' /\ Forall (column_ok64 (/ 1000) 10000 fuel_ex (fval (lit 1 0 : f64))) casts4'
  /\ surface64 linear_fun (dec 1 (-13)) 10000 casts4' stp4
  /\ bfs_conncomp1_wet_perim (jmd95_rho sdiv) (linear_coeffs_1 (nan : f64)) fuel_ex casts4 (lit 1 0 : f64) ml4
       10 [0; 0; 0; 0]%nat four_ptr four_ind 0 10 stp4 = Ok (new, [bottom; bottom; bottom; (nan, nan, p)])
  /\ isfinite p = true /\ ltb deep p = true.
Proof. exact water_refuted. Qed.
Print Assumptions C63_water_refuted.

Example C63_witness : Forall2 holds_column casts4 casts4' /\ Forall (column_ok64 (/ 1000) 10000 fuel_ex (fval (lit 1 0 : f64))) casts4'
  /\ Forall (cast_in (sea (/ 1000) (10000 - 1))) casts4' /\ csr 4 four_ptr four_ind /\ length casts4 = 4%nat /\ length ml4 = 4%nat
  /\ surface64 linear_fun (dec 1 (-13)) 10000 casts4' stp4 /\ (forall m, INR (length (listed four_ptr four_ind m)) <= powerRZ 2 32).
Proof. exact wet_witness. Qed.
Example C63_run : bfs_conncomp1_wet_perim (jmd95_rho sdiv) (linear_coeffs_1 (nan : f64)) fuel_ex [colA; colB] (lit 1 0 : f64) [ninf; ninf]
    10 [0; 0]%nat [0; 1; 2]%nat [1; 0]%nat 0 10 [(lit 35 0, lit 10 0, lit 500 0); (nan, nan, nan)] = Ok wet_run_value
  /\ exists s t p, nth_error (snd wet_run_value) 1 = Some (s, t, p) /\ isfinite s = true /\ isfinite t = true /\ isfinite p = true.
Proof. exact (conj wet_run wet_run_water). Qed.
