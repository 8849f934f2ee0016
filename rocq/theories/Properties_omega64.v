(** * omega_surf run in binary64 *)
From Coq Require Import String ZArith Reals List SpecFloat.
From Verif Require Import Num XR SF Res Arr Nd M_eostools M_lib M_make_pp M_ppinterp M_ntp M_matsolve M_omega M_surfaces S_lib S_eos S_float S_fzero64 S_domain S_named S_interp S_traj S_vertsolve S_surfaces S_mixed_layer
  S_graph S_vert64 S_entry64 S_ntp S_ntp64 S_omega S_omega64 S_matsolve S_system64 S_run64 P_omega64b Ex_vert64 Ex_entry64 Ex_ntp64 Ex_omega64.
Import ListNotations.
Local Open Scope R_scope.

Theorem C66_run : forall interp ppc rel e, scheme64 interp ppc rel e ->
  forall name v s0 d B b grav rho_c zp pm vs vt, named_eos name v -> limits64 name s0 e d B -> error_limits64 name s0 e b -> coordinate64 grav rho_c zp pm ->
  partials (seas zp) (at_depth zp v) vs vt ->
  exists f g itp, _process_eos sdiv (AStr name) grav rho_c true = Ok (F1 f, Some (F2 g)) /\ make_pp interp "u" "interp" true 2 = Ok itp
  /\ forall spsolve lsqr, solvers64 spsolve lsqr ->
  forall o sm, finite64 (TOL_P_SOLVER o) -> tolerance_ok (fval (TOL_P_SOLVER o)) -> s0 <= sm -> 0 < sm ->
  spells "poisson" (OMEGA_FORMULATION o) \/ spells "gradient" (OMEGA_FORMULATION o) -> (o_diags o = true -> (0 < ITER_MAX o)%Z) ->
  forall fuel casts casts', Forall2 holds_column casts casts' -> Forall (column_ok64 s0 pm fuel (fval (TOL_P_SOLVER o))) casts' ->
  Forall same_extent casts' -> Forall (cast_in (sea sm (pm - 1))) casts' ->
  forall edges g_dist g_perp ds ws, edges64 (length casts) edges g_dist g_perp ds ws ->
  forall loop_fuel junk0 junk junk_p junk_i, (length casts < loop_fuel)%nat -> (forall k, (length casts <= length (junk k))%nat) ->
  (length casts < length junk_p)%nat -> (2 * length edges <= length junk_i)%nat ->
  forall surf_shape pin pin_p p_init p_ml, finite64 pin_p -> in_cast casts' pin (fval pin_p) -> starts_at64 surf_shape (length casts) pin pin_p p_init ->
  below_mixed_layer64 (length casts) pin pin_p p_ml ->
  exists x dd its,
    omega_surf f g (ppc junk0) (interp_two_named itp) spsolve lsqr fuel loop_fuel junk junk_p junk_i surf_shape casts
      (Some edges) (Some g_dist) (Some g_perp) pin o p_init p_ml = Ok (x, dd, its)
    /\ ran64 rel (at_depth zp v) vs vt name e (2 * d) b pm casts' edges ds ws pin pin_p p_init p_ml o spsolve lsqr x dd its.
Proof. exact omega_named64. Qed.
Print Assumptions C66_run.

Theorem C66_entry : forall interp ppc rel e, scheme64 interp ppc rel e ->
  forall name v s0 d B b grav rho_c zp pm vs vt, named_eos name v -> limits64 name s0 e d B -> error_limits64 name s0 e b -> coordinate64 grav rho_c zp pm ->
  partials (seas zp) (at_depth zp v) vs vt ->
  forall spsolve lsqr, solvers64 spsolve lsqr ->
  forall o sm, finite64 (TOL_P_SOLVER o) -> tolerance_ok (fval (TOL_P_SOLVER o)) -> s0 <= sm -> 0 < sm ->
  spells "poisson" (OMEGA_FORMULATION o) \/ spells "gradient" (OMEGA_FORMULATION o) -> (o_diags o = true -> (0 < ITER_MAX o)%Z) ->
  forall fuel S T P vd s1 n s2 c c', water_columns S T P vd s1 n s2 c -> s1 ++ s2 <> [] ->
  (forall h, valid (s1 ++ s2) h -> holds_column (c h) (c' h) /\ column_ok64 s0 pm fuel (fval (TOL_P_SOLVER o)) (c' h)
     /\ same_extent (c' h) /\ cast_in (sea sm (pm - 1)) (c' h)) ->
  let sh := s1 ++ s2 in
  forall edges g_dist g_perp ds ws, edges64 (prod sh) edges g_dist g_perp ds ws ->
  forall loop_fuel junk0 junk junk_p junk_i, (prod sh < loop_fuel)%nat -> (forall k, (prod sh <= length (junk k))%nat) ->
  (prod sh < length junk_p)%nat -> (2 * length edges <= length junk_i)%nat ->
  forall index pin h0 pin_p p_init p_ml ml, valid sh h0 -> pin_omega64 pin h0 -> finite64 pin_p -> in_cast (map c' (all_idx sh)) (ravel sh h0) (fval pin_p) ->
  starts_at64 sh (prod sh) (ravel sh h0) pin_p (flat_init p_init) ->
  mixed_arg S T P vd name grav rho_c p_ml ml -> below_mixed_layer64 (prod sh) (ravel sh h0) pin_p ml ->
  exists s t p x dd its,
    omega_surf_pub spsolve lsqr junk0 fuel loop_fuel junk junk_p junk_i S T P (GDict (Some edges) (Some g_dist) (Some g_perp)) pin p_init index
      (mkOmega vd p_ml (AStr name) rho_c grav interp o) = Ok (s, t, p, dd, its)
    /\ S_surfaces.holds S T s1 s2 s t p (at_pos sh x)
    /\ ran64 rel (at_depth zp v) vs vt name e (2 * d) b pm (map c' (all_idx sh)) edges ds ws (ravel sh h0) pin_p (flat_init p_init) ml o spsolve lsqr x dd its.
Proof. exact omega_entry64. Qed.
Print Assumptions C66_entry.

Example C66_columns : water_columns wS wT wP (VInt (-1)) [2%nat] 4 [] wcol /\ (forall h, valid [2%nat] h -> holds_column (wcol h) (wcol' h)
  /\ column_ok64 (/ 1000) 10000 fuel_ex (fval (TOL_P_SOLVER wopt)) (wcol' h) /\ same_extent (wcol' h) /\ cast_in (sea (/ 1000) (10000 - 1)) (wcol' h)).
Proof. exact (conj w_columns w_water). Qed.
Example C66_solvers : solvers64 two_spsolve no_lsqr.
Proof. exact w_solvers. Qed.
Example C66_options : finite64 (TOL_P_SOLVER wopt) /\ tolerance_ok (fval (TOL_P_SOLVER wopt)) /\ (o_diags wopt = true -> (0 < ITER_MAX wopt)%Z)
  /\ (spells "poisson" (OMEGA_FORMULATION wopt) \/ spells "gradient" (OMEGA_FORMULATION wopt)).
Proof. exact w_options. Qed.
Example C66_edges : edges64 2 [(0, 1)%nat] (Sc (n 1000)) (Sc (n 500)) [1000] [500].
Proof. exact w_edges. Qed.
Example C66_pin : valid [2%nat] [0%nat] /\ pin_omega64 (APin (PinInt 0)) [0%nat] /\ finite64 (n 600)
  /\ in_cast (map wcol' (all_idx [2%nat])) (ravel [2%nat] [0%nat]) (fval (n 600))
  /\ starts_at64 [2%nat] 2 0 (n 600) (flat_init (InitScalar (n 600))) /\ below_mixed_layer64 2 0 (n 600) (Some [n 10; n 600]).
Proof. exact w_pin. Qed.
Example C66_runs : exists s t p dd its q, w_run = Ok (s, t, p, dd, its) /\ w_run_value = Some (elems (arr p), length its) /\ elems (arr p) = [n 600; q] /\ isfinite q = true
  /\ length its = 3%nat.
Proof. exact w_runs. Qed.
