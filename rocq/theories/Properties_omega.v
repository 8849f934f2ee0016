(** * Property C37: omega_surf (omega.py) *)
From Coq Require Import String ZArith Bool Reals List.
From Verif Require Import Num XR SF Res Arr M_graph M_lib M_ppinterp M_bfs M_ntp M_matsolve M_vertsolve M_omega S_graph S_interp S_traj S_vertsolve
  S_lib S_ntp S_matsolve S_omega P_linalg P_matsolve2 P_omega P_omega_exact P_omega_interp Ex_ppinterp Ex_traj Ex_ntp Ex_omega.
Import ListNotations.
Local Open Scope R_scope.

(** whatever the arithmetic, the equation of state and the solvers: the initial
    surface, the number of iterations, when they end, what they start from, when
    casts become wet, the pressure at the pin *)
Theorem C37_control :
  forall (F : Type) (Nm : Num F) eos eos_s_t ppc_fn interp_two spsolve lsqr fuel loop_fuel junk junk_p junk_i
    surf_shape casts g_edges g_dist g_distperp pin (o : @options F) p_init p_ml x d its,
  omega_surf eos eos_s_t ppc_fn interp_two spsolve lsqr fuel loop_fuel junk junk_p junk_i surf_shape casts
    g_edges g_dist g_distperp pin o p_init p_ml = Ok (x, d, its) ->
  let ml := match p_ml with Some l => l | None => repeat ninf (length casts) end in
  exists v x0 pin_p edges ip ix,
    eos (lit 345 (-1)) (lit 3 0) (lit 1000 0) = Ok v
    /\ g_edges = Some edges /\ edges_to_csr junk_p junk_i edges (Some (length casts)) = Ok (ip, ix)
    /\ begins interp_two (bfs_conncomp1_wet_perim eos ppc_fn fuel casts (TOL_P_SOLVER o) ml loop_fuel (junk 0%Z) ip ix pin (ITER_WET_PERIM o))
         surf_shape casts pin p_init x0 pin_p
    /\ run o (if ltb v (lit 1 0) then div (TOL_LRPD_MAV o) (lit 1 6) else TOL_LRPD_MAV o) ml pin pin_p x0 its x.
Proof. exact @omega_run. Qed.
Print Assumptions C37_control.

(** the diagnostics: neutrality errors of all surfaces, the rest of all iterations but the last *)
Theorem C37_diagnostics :
  forall (F : Type) (Nm : Num F) eos eos_s_t ppc_fn interp_two spsolve lsqr fuel loop_fuel junk junk_p junk_i
    surf_shape casts g_edges g_dist g_distperp pin (o : @options F) p_init p_ml x d its,
  omega_surf eos eos_s_t ppc_fn interp_two spsolve lsqr fuel loop_fuel junk junk_p junk_i surf_shape casts
    g_edges g_dist g_distperp pin o p_init p_ml = Ok (x, Some d, its) ->
  exists x0, (forall r, nth_error its 0 = Some r -> i_in r = x0)
    /\ describes (fun x => ntp_epsilon_errors_norms eos_s_t x (GDict g_edges g_dist g_distperp)) x0 its d.
Proof. exact @omega_diagnostics. Qed.
Print Assumptions C37_diagnostics.

(** exact arithmetic: omega_surf succeeds, and each iteration finds the water
    connected to the pin, the perturbation that minimises the neutrality errors,
    and the surface moved by it *)
Theorem C37_exact :
  forall D (eos : xr -> xr -> xr -> res xr) rho eos_s_t rs rt ppc_fn rel interp_two spsolve lsqr
    fuel loop_fuel junk junk_p junk_i surf_shape casts edges g_dist g_distperp dist distperp pin pp o tol p_init p_ml,
  eos_on D eos rho -> eos_s_t_on D eos_s_t rs rt -> nan_safe eos_s_t -> water_in D (34.5, 3, 1000) ->
  interpolator ppc_fn rel -> column_interp rel interp_two -> exact_spsolve spsolve -> exact_lsqr lsqr ->
  TOL_P_SOLVER o = Fin tol -> 0 < tol ->
  (forall c, In c casts -> any_cast c /\ cast_in D c /\ enough_fuel fuel tol c) ->
  Forall same_extent casts ->
  (length casts < loop_fuel)%nat -> (forall k, (length casts <= length (junk k))%nat) ->
  (length casts < length junk_p)%nat -> (2 * length edges <= length junk_i)%nat ->
  in_range edges (length casts) -> edges <> [] ->
  distances g_dist (length edges) dist -> distances g_distperp (length edges) distperp ->
  Forall (fun x => 0 < x) dist -> Forall (fun x => 0 < x) distperp ->
  in_cast casts pin pp -> starts_at surf_shape casts pin pp p_init -> below_mixed_layer casts pin pp p_ml ->
  spells "poisson" (OMEGA_FORMULATION o) \/ spells "gradient" (OMEGA_FORMULATION o) ->
  (o_diags o = true -> (0 < ITER_MAX o)%Z) ->
  exists x d its,
    omega_surf eos eos_s_t ppc_fn interp_two spsolve lsqr fuel loop_fuel junk junk_p junk_i surf_shape casts
      (Some edges) (Some g_dist) (Some g_distperp) pin o p_init p_ml = Ok (x, d, its)
    /\ (d = None <-> o_diags o = false)
    /\ surface rel casts x
    /\ Forall (step rel rho rs rt tol casts edges (weights dist distperp) pin o) its
    /\ exists s t, nth_error x pin = Some (Fin s, Fin t, Fin pp).
Proof. exact omega_exact. Qed.
Print Assumptions C37_exact.

(** a run ends well only if asked for a known formulation; else ValueError *)
Theorem C37_formulation_known : forall (F : Type) (Nm : Num F) eos eos_s_t ppc_fn interp_two spsolve lsqr fuel loop_fuel junk junk_p junk_i
    surf_shape casts g_edges g_dist g_distperp pin (o : @options F) p_init p_ml r,
  omega_surf eos eos_s_t ppc_fn interp_two spsolve lsqr fuel loop_fuel junk junk_p junk_i surf_shape casts
    g_edges g_dist g_distperp pin o p_init p_ml = Ok r -> spells "poisson" (OMEGA_FORMULATION o) \/ spells "gradient" (OMEGA_FORMULATION o).
Proof. exact formulation_known. Qed.
Print Assumptions C37_formulation_known.
Theorem C37_formulation_unknown : forall eos eos_s_t ppc_fn interp_two spsolve lsqr fuel loop_fuel junk junk_p junk_i surf_shape (casts : list (list xr * list xr * list xr))
    edges g_dist g_distperp dist distperp pin (o : @options xr) p_init p_ml,
  (length casts < length junk_p)%nat -> (2 * length edges <= length junk_i)%nat -> in_range edges (length casts) -> edges <> [] ->
  distances g_dist (length edges) dist -> distances g_distperp (length edges) distperp -> Forall (fun x => 0 < x) dist ->
  ~ spells "poisson" (OMEGA_FORMULATION o) -> ~ spells "gradient" (OMEGA_FORMULATION o) ->
  omega_surf eos eos_s_t ppc_fn interp_two spsolve lsqr fuel loop_fuel junk junk_p junk_i surf_shape casts
    (Some edges) (Some g_dist) (Some g_distperp) pin o p_init p_ml = Err ValueError.
Proof. exact formulation_unknown. Qed.
Print Assumptions C37_formulation_unknown.
Example C37_spelling : spells "poisson" "Poisson" /\ spells "gradient" "GRADIENT" /\ ~ spells "poisson" "Laplace" /\ ~ spells "gradient" "Laplace".
Proof. exact spelling_case. Qed.

(** the mean and the greatest change of pressure in the diagnostics of such a run *)
Theorem C37_changes :
  forall eos eos_s_t ppc_fn interp_two spsolve lsqr fuel loop_fuel junk junk_p junk_i
    surf_shape casts g_edges g_dist g_distperp pin (o : @options xr) p_init p_ml x d its rel rho rs rt tol edges weight,
  omega_surf eos eos_s_t ppc_fn interp_two spsolve lsqr fuel loop_fuel junk junk_p junk_i surf_shape casts
    g_edges g_dist g_distperp pin o p_init p_ml = Ok (x, Some d, its) ->
  Forall (step rel rho rs rt tol casts edges weight pin o) its ->
  forall k r s t pp, nth_error its k = Some r -> (S k < length its)%nat -> nth_error (i_out r) pin = Some (s, t, Fin pp) ->
  exists m, greatest m (map Rabs (changes (i_wet r) (i_out r)))
    /\ nth_error (d_dp_Linf d) (S k) = Some (Fin m)
    /\ nth_error (d_dp_MAV d) (S k) = Some (Fin (mean (map Rabs (changes (i_wet r) (i_out r))))).
Proof. exact omega_changes. Qed.
Print Assumptions C37_changes.

(** the interpolation functions of linear.py and pchip.py are as C37_exact asks *)
Theorem C37_linear : column_interp linear_fun (fun p P S T => linear_interp_1_two p P S T 0).
Proof. exact linear_column_interp. Qed.
Print Assumptions C37_linear.
Theorem C37_pchip : column_interp pchip_fun (fun p P S T => pchip_interp_1_two p P S T 0).
Proof. exact pchip_column_interp. Qed.
Print Assumptions C37_pchip.

(** not every iteration performed is in the diagnostics *)
Theorem C37_every_iteration_diagnosed_refuted :
  exists x d its r, orun (oopt 1 10) ostart None = Ok (x, Some d, its)
    /\ nth_error its (length its - 1) = Some r /\ nth_error (d_phi_MAV d) (length its) = None.
Proof. exact last_diagnostics_missing. Qed.
Print Assumptions C37_every_iteration_diagnosed_refuted.

(** a pin above the mixed layer makes the second iteration fail *)
Theorem C37_pin_in_mixed_layer_refuted : exists p_ml, orun (oopt 1 10) ostart p_ml = Err IndexError.
Proof. exact (ex_intro _ _ orun_mixed_layer). Qed.
Print Assumptions C37_pin_in_mixed_layer_refuted.

(** ITER_MAX = 0 fails if diagnostics are asked for *)
Theorem C37_no_iterations_refuted : exists o, ITER_MAX o = 0%Z /\ orun o ostart None = Err NameError.
Proof. exact (ex_intro _ (oopt 1 0) (conj eq_refl orun_none)). Qed.
Print Assumptions C37_no_iterations_refuted.

(** a run of two iterations *)
Example C37_run : exists x d r1 r2, orun (oopt 1 10) ostart None = Ok (x, Some d, [r1; r2])
  /\ d_phi_MAV d = [lit 0 0; i_phi_mav r1] /\ i_phi_mav r1 = lit 5 (-1)
  /\ d_n_newly_wet d = [0; 0]%nat /\ d_n_wet d = [2; 2]%nat.
Proof. exact orun_two. Qed.

(** the hypotheses of C37_exact can be met *)
Example C37_witness :
  eos_on exD exeos exrho /\ eos_s_t_on exD exst (fun _ _ _ => 1%R) (fun _ t _ => t) /\ nan_safe exst /\ water_in exD (34.5, 3, 1000)%R
  /\ interpolator (linear_coeffs_1 NaN) linear_fun /\ column_interp linear_fun (fun p P S T => linear_interp_1_two p P S T 0)
  /\ exact_spsolve ge_spsolve /\ exact_lsqr ge_lsqr
  /\ TOL_P_SOLVER ox_opt = Fin 1 /\ (forall c, In c ox_casts -> any_cast c /\ cast_in exD c /\ enough_fuel 13 1 c) /\ Forall same_extent ox_casts
  /\ in_range [(0, 1)%nat] (length ox_casts) /\ distances (Sc (Fin 1)) 1 [1%R]
  /\ in_cast ox_casts 0 2 /\ starts_at [2%nat] ox_casts 0 2 (IScalar (Fin 2))
  /\ starts_at [2%nat] ox_casts 0 2 (IArray [2%nat] [Fin 2; Fin 3]) /\ below_mixed_layer ox_casts 0 2 (Some [Fin 1; Fin 9])
  /\ spells "poisson" (OMEGA_FORMULATION ox_opt) /\ (0 < ITER_MAX ox_opt)%Z.
Proof. exact omega_witness. Qed.
