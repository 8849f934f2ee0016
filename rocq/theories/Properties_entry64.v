(** * The entry points potential_surf and anomaly_surf run in binary64 *)
From Coq Require Import String ZArith Reals List SpecFloat.
From Verif Require Import Num XR SF Res Arr Nd M_eostools M_lib M_ntp M_vertsolve M_surfaces S_eos S_float S_fzero64 S_interp S_domain S_named S_traj S_vertsolve
  S_surfaces S_vert64 S_entry64 P_entry64 Ex_vert64 Ex_entry64.
Import ListNotations.
Local Open Scope R_scope.

Theorem C59_potential : forall interp ppc rel e, scheme64 interp ppc rel e ->
  forall name v s0 d B grav rho_c zp pm,
  named_eos name v -> limits64 name s0 e d B -> coordinate64 grav rho_c zp pm ->
  forall S T P vd s1 n s2 c c', water_columns S T P vd s1 n s2 c ->
  (forall h, valid (s1 ++ s2) h -> holds_column (c h) (c' h) /\ any_cast (c' h) /\ cast_in (sea s0 pm) (c' h) /\ column_spaced (c' h)) ->
  forall tol : f64, finite64 tol -> tolerance_ok (fval tol) ->
  forall grid index (junk : f64) (ref iso : f64), finite64 ref -> 0 <= fval ref <= pm -> finite64 iso -> Rabs (fval iso) <= B ->
  exists s t p x, S_surfaces.holds S T s1 s2 s t p x
    /\ (forall fuel, (forall h, valid (s1 ++ s2) h -> enough_fuel64 fuel (fval tol) (c' h)) ->
        potential_surf junk fuel S T P index (mkIso (RFloat ref) (Some iso) ANone PNone vd tol (AStr name) rho_c grav false grid interp)
        = Ok (s, t, p, mkIsoDiags (RFloat ref) iso None))
    /\ (forall h, valid (s1 ++ s2) h -> surface_point64 rel (potential_of (at_depth zp v) (fval ref) (fval iso)) (fval tol) e d (c' h) (x h)).
Proof. exact potential_entry64. Qed.
Print Assumptions C59_potential.

Theorem C59_anomaly : forall interp ppc rel e, scheme64 interp ppc rel e ->
  forall name v s0 d B grav rho_c zp pm,
  named_eos name v -> limits64 name s0 e d B -> coordinate64 grav rho_c zp pm ->
  forall S T P vd s1 n s2 c c', water_columns S T P vd s1 n s2 c ->
  (forall h, valid (s1 ++ s2) h -> holds_column (c h) (c' h) /\ any_cast (c' h) /\ cast_in (sea s0 pm) (c' h) /\ column_spaced (c' h)) ->
  forall tol : f64, finite64 tol -> tolerance_ok (fval tol) ->
  forall grid index (junk : f64) (sr tr iso : f64), finite64 sr -> s0 <= fval sr <= 42 -> finite64 tr -> -3 <= fval tr <= 40 ->
  finite64 iso -> Rabs (fval iso) <= B ->
  exists s t p x, S_surfaces.holds S T s1 s2 s t p x
    /\ (forall fuel, (forall h, valid (s1 ++ s2) h -> enough_fuel64 fuel (fval tol) (c' h)) ->
        anomaly_surf junk fuel S T P index (mkIso (RPair (Some sr) (Some tr)) (Some iso) ANone PNone vd tol (AStr name) rho_c grav false grid interp)
        = Ok (s, t, p, mkIsoDiags (RPair (Some sr) (Some tr)) iso None))
    /\ (forall h, valid (s1 ++ s2) h -> surface_point64 rel (anomaly_of (at_depth zp v) (fval sr) (fval tr) (fval iso)) (fval tol) e (2 * d) (c' h) (x h)).
Proof. exact anomaly_entry64. Qed.
Print Assumptions C59_anomaly.

Theorem C59_potential_pinned : forall interp ppc rel e, scheme64 interp ppc rel e ->
  forall name v s0 d B grav rho_c zp pm,
  named_eos name v -> limits64 name s0 e d B -> coordinate64 grav rho_c zp pm ->
  forall S T P vd s1 n s2 c c', water_columns S T P vd s1 n s2 c ->
  (forall h, valid (s1 ++ s2) h -> holds_column (c h) (c' h) /\ any_cast (c' h) /\ cast_in (sea s0 pm) (c' h) /\ column_spaced (c' h)) ->
  forall tol : f64, finite64 tol -> tolerance_ok (fval tol) ->
  forall grid index (junk : f64) pin z h0 (pp : f64) (ref iso : option f64),
  pin_tuple64 pin z -> indexes (s1 ++ s2) h0 z -> finite64 pp -> has_pressure (c' h0) (fval pp) ->
  (ref = None -> iso = None) -> (forall r, ref = Some r -> finite64 r /\ 0 <= fval r <= pm) ->
  (forall i, iso = Some i -> finite64 i /\ Rabs (fval i) <= B) ->
  exists s t p x gS gT lo hi sv tv (iv64 : f64),
    let rv := match ref with Some r => r | None => pp end in
    let iv := match iso with Some i => fval i | None => at_depth zp v (gS (fval pp)) (gT (fval pp)) (fval rv) end in
    S_surfaces.holds S T s1 s2 s t p x
    /\ (forall fuel, (forall h, valid (s1 ++ s2) h -> enough_fuel64 fuel (fval tol) (c' h)) ->
        potential_surf junk fuel S T P index (mkIso match ref with Some r => RFloat r | None => RNone end iso pin (PFloat pp) vd tol (AStr name) rho_c grav false grid interp)
        = Ok (s, t, p, mkIsoDiags (RFloat rv) iv64 None))
    /\ profile rel (c' h0) gS gT lo hi /\ lo <= fval pp <= hi
    /\ x h0 = (sv, tv, pp) /\ S_float.within sv (gS (fval pp)) e /\ S_float.within tv (gT (fval pp)) e
    /\ (forall i, iso = Some i -> iv64 = i) /\ S_float.within iv64 iv d
    /\ (forall h, valid (s1 ++ s2) h -> h <> h0 -> surface_point64 rel (potential_of (at_depth zp v) (fval rv) iv) (fval tol) e (2 * d) (c' h) (x h)).
Proof. exact potential_pin_entry64. Qed.
Print Assumptions C59_potential_pinned.

Theorem C59_anomaly_pinned : forall interp ppc rel e, scheme64 interp ppc rel e ->
  forall name v s0 d B grav rho_c zp pm,
  named_eos name v -> limits64 name s0 e d B -> coordinate64 grav rho_c zp pm ->
  forall S T P vd s1 n s2 c c', water_columns S T P vd s1 n s2 c ->
  (forall h, valid (s1 ++ s2) h -> holds_column (c h) (c' h) /\ any_cast (c' h) /\ cast_in (sea s0 pm) (c' h) /\ column_spaced (c' h)) ->
  forall tol : f64, finite64 tol -> tolerance_ok (fval tol) ->
  forall grid index (junk : f64) pin z h0 (pp : f64) (ref : option (f64 * f64)) (iso : option f64),
  pin_tuple64 pin z -> indexes (s1 ++ s2) h0 z -> finite64 pp -> has_pressure (c' h0) (fval pp) ->
  (ref = None -> iso = None) ->
  (forall r, ref = Some r -> finite64 (fst r) /\ s0 <= fval (fst r) <= 42 /\ finite64 (snd r) /\ -3 <= fval (snd r) <= 40) ->
  (forall i, iso = Some i -> finite64 i /\ Rabs (fval i) <= B) ->
  exists s t p x gS gT lo hi sv tv (iv64 : f64),
    let rv := match ref with Some r => r | None => (sv, tv) end in
    let '(rs, rt) := match ref with Some r => (fval (fst r), fval (snd r)) | None => (gS (fval pp), gT (fval pp)) end in
    let iv := match iso with Some i => fval i | None => at_depth zp v (gS (fval pp)) (gT (fval pp)) (fval pp) - at_depth zp v rs rt (fval pp) end in
    S_surfaces.holds S T s1 s2 s t p x
    /\ (forall fuel, (forall h, valid (s1 ++ s2) h -> enough_fuel64 fuel (fval tol) (c' h)) ->
        anomaly_surf junk fuel S T P index (mkIso match ref with Some r => RPair (Some (fst r)) (Some (snd r)) | None => RNone end iso pin (PFloat pp) vd tol (AStr name) rho_c grav false grid interp)
        = Ok (s, t, p, mkIsoDiags (RPair (Some (fst rv)) (Some (snd rv))) iv64 None))
    /\ profile rel (c' h0) gS gT lo hi /\ lo <= fval pp <= hi
    /\ x h0 = (sv, tv, pp) /\ S_float.within sv (gS (fval pp)) e /\ S_float.within tv (gT (fval pp)) e
    /\ (forall i, iso = Some i -> iv64 = i) /\ S_float.within iv64 iv (2 * d)
    /\ (forall h, valid (s1 ++ s2) h -> h <> h0 -> surface_point64 rel (anomaly_of (at_depth zp v) rs rt iv) (fval tol) e (4 * d) (c' h) (x h)).
Proof. exact anomaly_pin_entry64. Qed.
Print Assumptions C59_anomaly_pinned.

Example C59_columns : water_columns eS eT eP (VInt (-1)) [2%nat] 4 [] ecol
  /\ forall h, valid [2%nat] h -> holds_column (ecol h) (ecol' h) /\ any_cast (ecol' h) /\ cast_in (sea (/ 1000) 10000) (ecol' h) /\ column_spaced (ecol' h)
       /\ enough_fuel64 fuel_ex 1 (ecol' h).
Proof. exact (conj e_columns e_water). Qed.
Example C59_coordinate : coordinate64 None None 1 10000 /\ coordinate64 (Some (lit 10 0 : f64)) (Some (lit 1000 0 : f64)) 1 10000
  /\ coordinate64 (Some (lit 10 0 : f64)) (Some (lit 1026 0 : f64)) (1026 / 1000) 9000.
Proof. exact e_coordinate. Qed.
Example C59_pin : pin_tuple64 (APin (PinInt (-1))) [-1]%Z /\ indexes [2%nat] [1%nat] [-1]%Z /\ has_pressure (ecol' [1%nat]) 600.
Proof. exact e_pin. Qed.
Example C59_run : exists r, e_run_value = Some r /\ potential_surf (nan : f64) fuel_ex eS eT eP noindex e_run = Ok r.
Proof. exact e_runs. Qed.
