(** * Neutrality errors and their norms in binary64 *)
From Coq Require Import String ZArith Reals List SpecFloat.
From Verif Require Import Num XR SF Res Arr Nd M_eostools M_lib M_ntp M_vertsolve M_surfaces S_eos S_float S_fzero64 S_interp S_domain S_named S_traj S_vertsolve
  S_surfaces S_vert64 S_entry64 S_ntp64 P_sum64 P_ntp64b P_surfdiag64 Ex_vert64 Ex_entry64 Ex_ntp64.
Import ListNotations.
Local Open Scope R_scope.

Theorem C62_errors : forall name v s0 h b grav rho_c zp pm vs vt,
  named_eos name v -> error_limits64 name s0 h b -> coordinate64 grav rho_c zp pm -> partials (seas zp) (at_depth zp v) vs vt ->
  exists f, make_eos_s_t sdiv (AStr name) grav rho_c = Ok (F2 f)
    /\ forall stp w edges, Forall2 (bottle_holds (sea s0 pm) h) stp w ->
         Forall (fun e => (fst e < length stp)%nat /\ (snd e < length stp)%nat) edges ->
         let x := edge_errors vs vt w edges in
         (forall grid, grid = GTuple edges \/ (exists perp, grid = GDict (Some edges) None perp) ->
            exists e, ntp_epsilon_errors f stp grid = Ok e /\ Forall2 (fun x e => error_holds x b e) x e)
         /\ (forall dist perp ds, distances64 dist (length edges) ds -> Forall moderate ds ->
               exists e, ntp_epsilon_errors f stp (GDict (Some edges) (Some dist) perp) = Ok e /\ length e = length edges
                 /\ forall i y d z, nth_error x i = Some y -> nth_error ds i = Some d -> nth_error e i = Some z ->
                      error_holds (option_map (fun y => y / d) y) (2 * b / d) z)
         /\ (forall np_sum dist perp ds ws, (forall l, summed l (np_sum l)) -> INR (length edges) <= powerRZ 2 40 ->
               distances64 dist (length edges) ds -> distances64 perp (length edges) ws ->
               Forall moderate ds -> Forall (fun w => w = 0 \/ moderate w) ws ->
               exists rms mav, ntp_epsilon_errors_norms_by f np_sum stp (GDict (Some edges) (Some dist) (Some perp)) = Ok (rms, mav)
                 /\ norms_hold b (length edges) (wet x ds ws) rms mav).
Proof. exact errors64. Qed.
Print Assumptions C62_errors.

Theorem C62_left_to_right : forall l : list f64, summed l (fsum l).
Proof. exact fsum_summed. Qed.
Print Assumptions C62_left_to_right.

Theorem C62_diagnostics : forall rel e interp name v s0 b grav rho_c zp pm vs vt sm,
  named_eos name v -> error_limits64 name s0 e b -> coordinate64 grav rho_c zp pm -> partials (seas zp) (at_depth zp v) vs vt -> s0 <= sm -> 0 < sm ->
  forall S T s1 s2 c' s t p x w, (forall h, valid (s1 ++ s2) h -> cast_in (sea sm pm) (c' h)) -> S_surfaces.holds S T s1 s2 s t p x ->
  (forall h, valid (s1 ++ s2) h -> on_column rel e (c' h) (x h) (w h)) ->
  forall grid edges ds ws, geometry64 (s1 ++ s2) grid edges ds ws ->
  exists rms mav, norms_hold b (length edges) (wet (edge_errors vs vt (map w (all_idx (s1 ++ s2))) edges) ds ws) rms mav
    /\ forall P vd index junk fuel a ref iso pin pin_p tol g0 r i,
       isopycnal_surf junk fuel a S T P index (mkIso ref iso pin pin_p vd tol (AStr name) rho_c grav false g0 interp) = Ok (s, t, p, mkIsoDiags r i None) ->
       isopycnal_surf junk fuel a S T P index (mkIso ref iso pin pin_p vd tol (AStr name) rho_c grav true grid interp)
       = Ok (s, t, p, mkIsoDiags r i (Some (rms, mav, waters (s1 ++ s2) w))).
Proof. exact diagnostics64. Qed.
Print Assumptions C62_diagnostics.

Theorem C62_potential : forall interp ppc rel e, scheme64 interp ppc rel e ->
  forall name v vs vt s0 b d B sm grav rho_c zp pm,
  named_eos name v -> error_limits64 name s0 e b -> limits64 name s0 e d B -> coordinate64 grav rho_c zp pm ->
  partials (seas zp) (at_depth zp v) vs vt -> s0 <= sm -> 0 < sm ->
  forall S T P vd s1 n s2 c c', water_columns S T P vd s1 n s2 c ->
  (forall h, valid (s1 ++ s2) h -> holds_column (c h) (c' h) /\ any_cast (c' h) /\ cast_in (sea sm pm) (c' h) /\ column_spaced (c' h)) ->
  forall tol : f64, finite64 tol -> tolerance_ok (fval tol) ->
  forall grid edges ds ws, geometry64 (s1 ++ s2) grid edges ds ws ->
  forall index (junk : f64) (ref iso : f64), finite64 ref -> 0 <= fval ref <= pm -> finite64 iso -> Rabs (fval iso) <= B ->
  exists s t p x w rms mav, S_surfaces.holds S T s1 s2 s t p x
    /\ (forall fuel, (forall h, valid (s1 ++ s2) h -> enough_fuel64 fuel (fval tol) (c' h)) ->
        potential_surf junk fuel S T P index (mkIso (RFloat ref) (Some iso) ANone PNone vd tol (AStr name) rho_c grav true grid interp)
        = Ok (s, t, p, mkIsoDiags (RFloat ref) iso (Some (rms, mav, waters (s1 ++ s2) w))))
    /\ (forall h, valid (s1 ++ s2) h ->
          surface_point64 rel (potential_of (at_depth zp v) (fval ref) (fval iso)) (fval tol) e d (c' h) (x h)
          /\ on_column rel e (c' h) (x h) (w h))
    /\ norms_hold b (length edges) (wet (edge_errors vs vt (map w (all_idx (s1 ++ s2))) edges) ds ws) rms mav.
Proof. exact potential_diags64. Qed.
Print Assumptions C62_potential.

Theorem C62_anomaly : forall interp ppc rel e, scheme64 interp ppc rel e ->
  forall name v vs vt s0 b d B sm grav rho_c zp pm,
  named_eos name v -> error_limits64 name s0 e b -> limits64 name s0 e d B -> coordinate64 grav rho_c zp pm ->
  partials (seas zp) (at_depth zp v) vs vt -> s0 <= sm -> 0 < sm ->
  forall S T P vd s1 n s2 c c', water_columns S T P vd s1 n s2 c ->
  (forall h, valid (s1 ++ s2) h -> holds_column (c h) (c' h) /\ any_cast (c' h) /\ cast_in (sea sm pm) (c' h) /\ column_spaced (c' h)) ->
  forall tol : f64, finite64 tol -> tolerance_ok (fval tol) ->
  forall grid edges ds ws, geometry64 (s1 ++ s2) grid edges ds ws ->
  forall index (junk : f64) (sr tr iso : f64), finite64 sr -> s0 <= fval sr <= 42 -> finite64 tr -> -3 <= fval tr <= 40 ->
  finite64 iso -> Rabs (fval iso) <= B ->
  exists s t p x w rms mav, S_surfaces.holds S T s1 s2 s t p x
    /\ (forall fuel, (forall h, valid (s1 ++ s2) h -> enough_fuel64 fuel (fval tol) (c' h)) ->
        anomaly_surf junk fuel S T P index (mkIso (RPair (Some sr) (Some tr)) (Some iso) ANone PNone vd tol (AStr name) rho_c grav true grid interp)
        = Ok (s, t, p, mkIsoDiags (RPair (Some sr) (Some tr)) iso (Some (rms, mav, waters (s1 ++ s2) w))))
    /\ (forall h, valid (s1 ++ s2) h ->
          surface_point64 rel (anomaly_of (at_depth zp v) (fval sr) (fval tr) (fval iso)) (fval tol) e (2 * d) (c' h) (x h)
          /\ on_column rel e (c' h) (x h) (w h))
    /\ norms_hold b (length edges) (wet (edge_errors vs vt (map w (all_idx (s1 ++ s2))) edges) ds ws) rms mav.
Proof. exact anomaly_diags64. Qed.
Print Assumptions C62_anomaly.

Example C62_bottles : Forall2 (bottle_holds (sea (/ 1000) 10000) (dec 1 (-13))) nbottles nwaters
  /\ Forall (fun e => (fst e < length nbottles)%nat /\ (snd e < length nbottles)%nat) nedges.
Proof. split; [exact n_bottles|]. repeat constructor. Qed.
Example C62_distances : distances64 ndist 3 [10; 20; 500] /\ distances64 nperp 3 [5; 5; 5] /\ Forall moderate [10; 20; 500]
  /\ Forall (fun w => w = 0 \/ moderate w) [5; 5; 5] /\ INR 3 <= powerRZ 2 40.
Proof. exact n_distances. Qed.
Example C62_partials : forall name v, named_eos name v -> exists vs vt, partials (seas 1) (at_depth 1 v) vs vt.
Proof. exact n_partials. Qed.
Example C62_geometry : geometry64 [2%nat] egrid [(0, 1)%nat] [1000] [500].
Proof. exact e_geometry. Qed.
Example C62_run : exists x rms mav, n_run_value = Some (Ok [x; nan; nan], Ok (rms, mav)) /\ n_run = n_run_value.
Proof. exact n_runs. Qed.
Example C62_surface_run : exists s t p d rms mav, potential_surf (nan : f64) fuel_ex eS eT eP noindex d_run = Ok (s, t, p, d) /\ d_errors d = d_run_value
  /\ d_run_value = Some (rms, mav, 2%nat).
Proof. exact d_runs. Qed.
Example C62_pchip_run : exists s t p d rms mav, potential_surf (nan : f64) fuel_ex eS eT eP noindex d_run_pchip = Ok (s, t, p, d) /\ d_errors d = d_run_pchip_value
  /\ d_run_pchip_value = Some (rms, mav, 2%nat).
Proof. exact d_runs_pchip. Qed.
