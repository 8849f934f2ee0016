(** * Properties of the entry points potential_surf, anomaly_surf and omega_surf *)
From Coq Require Import String ZArith Bool List SpecFloat Reals.
From Verif Require Import Num XR SF Res Arr Nd M_graph M_lib M_eos_base M_eostools M_mixed_layer M_ppinterp M_ntp M_vertsolve M_omega M_surfaces
  S_fzero S_graph S_eos S_interp S_traj S_vertsolve S_lib S_ntp S_mixed_layer S_omega S_matsolve S_named S_surfaces
  P_linalg P_matsolve P_surfaces P_surfaces2 P_surfaces3 Ex_ppinterp Ex_traj Ex_omega Ex_surfaces.
Import ListNotations.
Local Open Scope R_scope.

(** ** C52: potential_surf and anomaly_surf *)

(** given ref and isovalue, with a named equation of state *)
Theorem C52_potential :
  forall name v grav rho_c zp, named_eos name v -> pressure_factor grav rho_c zp ->
  forall interp rel, named_interp interp rel -> forall tol, 0 < tol ->
  forall S T P vd s1 n s2 c, water_columns S T P vd s1 n s2 c ->
  (forall h, valid (s1 ++ s2) h -> any_cast (c h) /\ cast_in (seas zp) (c h)) ->
  forall diags grid edges dist distperp, (diags = true -> geometry (s1 ++ s2) grid edges dist distperp) ->
  forall index junk ref iso, dP (seas zp) ref ->
    exists s t p x d, holds S T s1 s2 s t p x
      /\ (forall fuel, (forall h, valid (s1 ++ s2) h -> enough_fuel fuel tol (c h)) ->
            potential_surf junk fuel S T P index
              (mkIso (RFloat (Fin ref)) (Some (Fin iso)) ANone PNone vd (Fin tol) (AStr name) rho_c grav diags grid interp)
            = Ok (s, t, p, mkIsoDiags (RFloat (Fin ref)) (Fin iso) d))
      /\ (forall h, valid (s1 ++ s2) h -> surface_point rel (potential_of (at_depth zp v) ref iso) tol (c h) (x h))
      /\ diagnosed zp v diags (s1 ++ s2) edges dist distperp x d.
Proof. exact potential_isovalue. Qed.
Print Assumptions C52_potential.

Theorem C52_anomaly :
  forall name v grav rho_c zp, named_eos name v -> pressure_factor grav rho_c zp ->
  forall interp rel, named_interp interp rel -> forall tol, 0 < tol ->
  forall S T P vd s1 n s2 c, water_columns S T P vd s1 n s2 c ->
  (forall h, valid (s1 ++ s2) h -> any_cast (c h) /\ cast_in (seas zp) (c h)) ->
  forall diags grid edges dist distperp, (diags = true -> geometry (s1 ++ s2) grid edges dist distperp) ->
  forall index junk s0 t0 iso, dS (seas zp) s0 -> dT (seas zp) t0 ->
    exists s t p x d, holds S T s1 s2 s t p x
      /\ (forall fuel, (forall h, valid (s1 ++ s2) h -> enough_fuel fuel tol (c h)) ->
            anomaly_surf junk fuel S T P index
              (mkIso (RPair (Some (Fin s0)) (Some (Fin t0))) (Some (Fin iso)) ANone PNone vd (Fin tol) (AStr name) rho_c grav diags grid interp)
            = Ok (s, t, p, mkIsoDiags (RPair (Some (Fin s0)) (Some (Fin t0))) (Fin iso) d))
      /\ (forall h, valid (s1 ++ s2) h -> surface_point rel (anomaly_of (at_depth zp v) s0 t0 iso) tol (c h) (x h))
      /\ diagnosed zp v diags (s1 ++ s2) edges dist distperp x d.
Proof. exact anomaly_isovalue. Qed.
Print Assumptions C52_anomaly.

(** given a pinning point; ref and isovalue if not given are those of the water there *)
Theorem C52_potential_pinned :
  forall name v grav rho_c zp, named_eos name v -> pressure_factor grav rho_c zp ->
  forall interp rel, named_interp interp rel -> forall tol, 0 < tol ->
  forall S T P vd s1 n s2 c, water_columns S T P vd s1 n s2 c ->
  (forall h, valid (s1 ++ s2) h -> any_cast (c h) /\ cast_in (seas zp) (c h)) ->
  forall diags grid edges dist distperp, (diags = true -> geometry (s1 ++ s2) grid edges dist distperp) ->
  forall index junk pin h0 pp (ref iso : option R), pins S (length s1) index pin (s1 ++ s2) h0 -> has_pressure (c h0) pp ->
    (ref = None -> iso = None) -> (forall r, ref = Some r -> dP (seas zp) r) ->
    exists s t p x d gS gT lo hi, let rv := match ref with Some r => r | None => pp end in
      let iv := match iso with Some i => i | None => at_depth zp v (gS pp) (gT pp) rv end in
      holds S T s1 s2 s t p x
      /\ (forall fuel, (forall h, valid (s1 ++ s2) h -> enough_fuel fuel tol (c h)) ->
            potential_surf junk fuel S T P index
              (mkIso (match ref with Some r => RFloat (Fin r) | None => RNone end) (option_map Fin iso) pin (PFloat (Fin pp))
                 vd (Fin tol) (AStr name) rho_c grav diags grid interp)
            = Ok (s, t, p, mkIsoDiags (RFloat (Fin rv)) (Fin iv) d))
      /\ profile rel (c h0) gS gT lo hi /\ lo <= pp <= hi /\ x h0 = (Fin (gS pp), Fin (gT pp), Fin pp)
      /\ (forall h, valid (s1 ++ s2) h -> h <> h0 -> surface_point rel (potential_of (at_depth zp v) rv iv) tol (c h) (x h))
      /\ diagnosed zp v diags (s1 ++ s2) edges dist distperp x d.
Proof. exact potential_pin. Qed.
Print Assumptions C52_potential_pinned.

Theorem C52_anomaly_pinned :
  forall name v grav rho_c zp, named_eos name v -> pressure_factor grav rho_c zp ->
  forall interp rel, named_interp interp rel -> forall tol, 0 < tol ->
  forall S T P vd s1 n s2 c, water_columns S T P vd s1 n s2 c ->
  (forall h, valid (s1 ++ s2) h -> any_cast (c h) /\ cast_in (seas zp) (c h)) ->
  forall diags grid edges dist distperp, (diags = true -> geometry (s1 ++ s2) grid edges dist distperp) ->
  forall index junk pin h0 pp (ref : option (R * R)) (iso : option R), pins S (length s1) index pin (s1 ++ s2) h0 -> has_pressure (c h0) pp ->
    (ref = None -> iso = None) -> (forall r, ref = Some r -> dS (seas zp) (fst r) /\ dT (seas zp) (snd r)) ->
    exists s t p x d gS gT lo hi, let rv := match ref with Some r => r | None => (gS pp, gT pp) end in
      let iv := match iso with Some i => i | None => at_depth zp v (gS pp) (gT pp) pp - at_depth zp v (fst rv) (snd rv) pp end in
      holds S T s1 s2 s t p x
      /\ (forall fuel, (forall h, valid (s1 ++ s2) h -> enough_fuel fuel tol (c h)) ->
            anomaly_surf junk fuel S T P index
              (mkIso (match ref with Some r => RPair (Some (Fin (fst r))) (Some (Fin (snd r))) | None => RNone end) (option_map Fin iso) pin (PFloat (Fin pp))
                 vd (Fin tol) (AStr name) rho_c grav diags grid interp)
            = Ok (s, t, p, mkIsoDiags (RPair (Some (Fin (fst rv))) (Some (Fin (snd rv)))) (Fin iv) d))
      /\ profile rel (c h0) gS gT lo hi /\ lo <= pp <= hi /\ x h0 = (Fin (gS pp), Fin (gT pp), Fin pp)
      /\ (forall h, valid (s1 ++ s2) h -> h <> h0 -> surface_point rel (anomaly_of (at_depth zp v) (fst rv) (snd rv) iv) tol (c h) (x h))
      /\ diagnosed zp v diags (s1 ++ s2) edges dist distperp x d.
Proof. exact anomaly_pin. Qed.
Print Assumptions C52_anomaly_pinned.

(** the named equations of state are continuous, so each point of these surfaces is within the
    tolerance of an exact solution *)
Theorem C52_exact_root :
  forall name v zp rel H tol c r, named_eos name v -> 0 < tol -> cast_in (seas zp) c -> surface_point rel H tol c r ->
    (exists ref iso, dP (seas zp) ref /\ H = potential_of (at_depth zp v) ref iso)
    \/ (exists s0 t0 iso, dS (seas zp) s0 /\ dT (seas zp) t0 /\ H = anomaly_of (at_depth zp v) s0 t0 iso) ->
    r = (NaN, NaN, NaN) \/ exists gS gT lo hi p q, profile rel c gS gT lo hi /\ r = (Fin (gS p), Fin (gT p), Fin p)
      /\ lo <= p <= hi /\ lo <= q <= hi /\ H (gS q) (gT q) q = 0 /\ Rabs (p - q) <= brent_tol p tol.
Proof. exact named_root. Qed.
Print Assumptions C52_exact_root.

(** diagnostics without a grid are refused *)
Theorem C52_no_grid :
  forall name v grav rho_c zp, named_eos name v -> pressure_factor grav rho_c zp ->
  forall interp rel, named_interp interp rel ->
  forall (tol : R) S T P vd s1 n s2 c, water_columns S T P vd s1 n s2 c ->
  forall diags grid index junk a ref iso pin pin' pin_p fuel, diags = true -> (forall e gd gp, grid <> M_ntp.GDict (Some e) gd gp) -> pin_of pin S index = Ok pin' ->
    isopycnal_surf junk fuel a S T P index (mkIso ref iso pin pin_p vd (Fin tol) (AStr name) rho_c grav diags grid interp) = Err ValueError.
Proof. exact no_grid. Qed.
Print Assumptions C52_no_grid.

(** contrary to the documentation, the distances of the grid are needed for diagnostics *)
Theorem C52_distances_optional_refuted :
  forall name v grav rho_c zp interp rel tol S T P vd s1 n s2 c edges gd gp index junk ref iso,
  named_eos name v -> pressure_factor grav rho_c zp -> named_interp interp rel -> 0 < tol -> water_columns S T P vd s1 n s2 c ->
  (forall h, valid (s1 ++ s2) h -> any_cast (c h) /\ cast_in (seas zp) (c h)) ->
  Forall (fun e => (fst e < prod (s1 ++ s2))%nat /\ (snd e < prod (s1 ++ s2))%nat) edges ->
  gd = None \/ gp = None -> dP (seas zp) ref ->
  forall fuel, (forall h, valid (s1 ++ s2) h -> enough_fuel fuel tol (c h)) ->
  potential_surf junk fuel S T P index
    (mkIso (RFloat (Fin ref)) (Some (Fin iso)) ANone PNone vd (Fin tol) (AStr name) rho_c grav true (GDict (Some edges) gd gp) interp) = Err KeyError.
Proof. exact no_distances. Qed.
Print Assumptions C52_distances_optional_refuted.

(** the hypotheses can be met *)
Example C52_witness :
  named_eos "jmd95" jm_rho /\ pressure_factor None None 1 /\ named_interp "linear" linear_fun
  /\ water_columns sS sT sP (VName "z") [] 5 [2%nat] (fun _ => (exY, exT, exX))
  /\ any_cast (exY, exT, exX) /\ cast_in (seas 1) (exY, exT, exX) /\ enough_fuel 13 1 (exY, exT, exX)
  /\ geometry [2%nat] sgrid [(0, 1)%nat] [2] [3]
  /\ pins sS 0 sindex (APin (PinInt (-1))) [2%nat] [1%nat]
  /\ pins sS 0 sindex (APin (PinDict [("x"%string, Fin 8)])) [2%nat] [1%nat]
  /\ has_pressure (exY, exT, exX) 2 /\ dP (seas 1) 2 /\ dS (seas 1) 5 /\ dT (seas 1) 1.
Proof. exact surfaces_witness. Qed.
(** a run in binary64 *)
Example C52_run : exists s t p d, fpot (APin (PinInt (-1))) fgrid = Ok (s, t, p, d) /\ dims s = Some ["x"%string] /\ dims p = Some ["x"%string]
  /\ nth_error (elems (arr p)) 1 = Some (lit 600 0) /\ (exists q, nth_error (elems (arr p)) 0 = Some q /\ ltb (lit 562 0) q = true /\ ltb q (lit 563 0) = true)
  /\ d_ref d = RFloat (lit 600 0) /\ exists e, M_surfaces.d_errors d = Some (e, e, 2%nat) /\ ltb (lit 0 0) e = true.
Proof. exact fpot_run. Qed.
Example C52_run_no_distances : fpot (APin (PinInt 1)) (GDict (Some [(0, 1)%nat]) None None) = Err KeyError.
Proof. exact fpot_no_distances. Qed.

(** ** C53: omega_surf *)
Theorem C53_omega :
  forall name v grav rho_c zp, named_eos name v -> pressure_factor grav rho_c zp -> 0 <= 1000 * zp <= 10000 ->
  forall interp rel, named_interp interp rel ->
  forall (o : @options xr) tol, TOL_P_SOLVER o = Fin tol -> 0 < tol ->
  spells "poisson" (OMEGA_FORMULATION o) \/ spells "gradient" (OMEGA_FORMULATION o) ->
  (o_diags o = true -> (0 < ITER_MAX o)%Z) ->
  forall S T P vd s1 n s2 c fuel, water_columns S T P vd s1 n s2 c -> s1 ++ s2 <> [] ->
  (forall h, valid (s1 ++ s2) h -> any_cast (c h) /\ cast_in (seas zp) (c h) /\ same_extent (c h) /\ enough_fuel fuel tol (c h)) ->
  forall grid edges dist distperp, geometry (s1 ++ s2) grid edges dist distperp -> Forall (fun x => 0 < x) distperp -> edges <> [] ->
  forall index pin h0 pp p_init p_ml, valid (s1 ++ s2) h0 -> pins_omega S (length s1) index pin h0 -> has_pressure (c h0) pp ->
  init_at (s1 ++ s2) h0 pp p_init -> ml_above (s1 ++ s2) h0 pp p_ml ->
  forall spsolve lsqr, exact_spsolve spsolve -> exact_lsqr lsqr ->
  forall junk0 loop_fuel junk junk_p junk_i, (prod (s1 ++ s2) < loop_fuel)%nat -> (forall k, (prod (s1 ++ s2) <= length (junk k))%nat) ->
  (prod (s1 ++ s2) < length junk_p)%nat -> (2 * length edges <= length junk_i)%nat ->
    exists s t p x d its x0,
      omega_surf_pub spsolve lsqr junk0 fuel loop_fuel junk junk_p junk_i S T P grid pin p_init index
        (mkOmega vd p_ml (AStr name) rho_c grav interp o) = Ok (s, t, p, d, its)
      /\ holds S T s1 s2 s t p (at_pos (s1 ++ s2) x)
      /\ (forall h, valid (s1 ++ s2) h -> snd (at_pos (s1 ++ s2) x h) = NaN \/ on_cast rel (c h) (at_pos (s1 ++ s2) x h))
      /\ on_cast rel (c h0) (at_pos (s1 ++ s2) x h0) /\ snd (at_pos (s1 ++ s2) x h0) = Fin pp
      /\ run o (if String.eqb name "gsw" then div (TOL_LRPD_MAV o) (lit 1 6) else TOL_LRPD_MAV o)
           (ml_list (s1 ++ s2) p_ml) (ravel (s1 ++ s2) h0) (Fin pp) x0 its x
      /\ initial_surface rel (s1 ++ s2) c h0 pp p_init (at_pos (s1 ++ s2) x0)
      /\ (d = None <-> o_diags o = false)
      /\ exists vs vt, partials (seas zp) (at_depth zp v) vs vt
         /\ Forall (step rel (at_depth zp v) vs vt tol (map c (all_idx (s1 ++ s2))) edges (weights dist distperp) (ravel (s1 ++ s2) h0) o) its
         /\ forall d', d = Some d' -> exists r m, nth_error (d_e_RMS d') (length its) = Some (Fin r)
              /\ nth_error (d_e_MAV d') (length its) = Some (Fin m) /\ neutrality_norms vs vt (s1 ++ s2) edges dist distperp (at_pos (s1 ++ s2) x) r m.
Proof. exact omega_named. Qed.
Print Assumptions C53_omega.

(** for any numbers: the mixed layer may be given by arguments of mixed_layer instead of its result *)
Theorem C53_mixed_layer :
  forall (F : Type) (Nm : Num F) spsolve lsqr (junk0 : F) fuel loop_fuel junk junk_p junk_i S T P v s1 n s2 c
    grid pin p_init index name rho_c grav interp o d0 r0 b0 i0 v0 d r b i ml,
    keyword d0 (lit 3 (-2)) d -> keyword r0 (lit 100 0) r -> keyword b0 1%Z b -> keyword i0 "linear"%string i -> keyword v0 (VInt (-1)) (VInt (-1)) ->
    water_columns S T P v s1 n s2 c -> mixed_layer S T P (AStr name) grav rho_c d r b i v = Ok ml ->
    omega_surf_pub spsolve lsqr junk0 fuel loop_fuel junk junk_p junk_i S T P grid pin p_init index
      (mkOmega v (MDict None None d0 r0 b0 i0 v0) (AStr name) rho_c grav interp o)
    = omega_surf_pub spsolve lsqr junk0 fuel loop_fuel junk junk_p junk_i S T P grid pin p_init index
      (mkOmega v (MArray ml) (AStr name) rho_c grav interp o).
Proof. exact @omega_mixed_layer. Qed.
Print Assumptions C53_mixed_layer.

(** in general the arguments are applied to the equation of state f that omega_surf has made *)
Theorem C53_mixed_layer_function :
  forall (F : Type) (Nm : Num F) spsolve lsqr (junk0 : F) fuel loop_fuel junk junk_p junk_i S T P v s1 n s2 c
    grid pin p_init index name rho_c grav interp o f g0 c0 d0 r0 b0 i0 v0 d r b i ml,
    keyword d0 (lit 3 (-2)) d -> keyword r0 (lit 100 0) r -> keyword b0 1%Z b -> keyword i0 "linear"%string i -> keyword v0 (VInt (-1)) (VInt (-1)) ->
    water_columns S T P v s1 n s2 c -> make_eos sdiv (AStr name) grav rho_c = Ok f -> mixed_layer S T P (AFun f) g0 c0 d r b i v = Ok ml ->
    omega_surf_pub spsolve lsqr junk0 fuel loop_fuel junk junk_p junk_i S T P grid pin p_init index
      (mkOmega v (MDict g0 c0 d0 r0 b0 i0 v0) (AStr name) rho_c grav interp o)
    = omega_surf_pub spsolve lsqr junk0 fuel loop_fuel junk junk_p junk_i S T P grid pin p_init index
      (mkOmega v (MArray ml) (AStr name) rho_c grav interp o).
Proof. exact @omega_mixed_layer_fun. Qed.
Print Assumptions C53_mixed_layer_function.

(** "the mixed layer is computed using mixed_layer with p_ml passed as keyword arguments": not if they say, as those of omega_surf do, that
    the ocean is Boussinesq.  Depth is then converted to pressure twice, and here a water column is kept that mixed_layer puts in the mixed layer. *)
Theorem C53_mixed_layer_boussinesq_refuted :
  mixed_layer fS fT fP (AStr "jmd95") (Some tg) (Some tr) (lit 627 (-4)) (lit 4000 0) 1 "linear" (VName "z") = Ok tml_arr
  /\ exists s t p dg its s' t' p' dg' its' q,
    tomega (MDict (Some tg) (Some tr) (Some (lit 627 (-4))) (Some (lit 4000 0)) None None None) = Ok (s, t, p, dg, its)
    /\ tomega (MArray tml_arr) = Ok (s', t', p', dg', its')
    /\ nth_error (elems (arr p)) 0 = Some q /\ isfinite q = true /\ nth_error (elems (arr p')) 0 = Some nan.
Proof. exact (conj tml_eq converted_twice). Qed.
Print Assumptions C53_mixed_layer_boussinesq_refuted.

(** for any numbers: there is a horizontal dimension, and the pin is a position with no negative index;
    an integer alone is one only on a grid with one horizontal dimension *)
Theorem C53_pins :
  forall (F : Type) (Nm : Num F) spsolve lsqr (junk0 : F) fuel loop_fuel junk junk_p junk_i S T P s1 n s2 c grid pin p_init index k r,
    water_columns S T P (w_vert_dim k) s1 n s2 c ->
    omega_surf_pub spsolve lsqr junk0 fuel loop_fuel junk junk_p junk_i S T P grid pin p_init index k = Ok r ->
    s1 ++ s2 <> [] /\ exists h, valid (s1 ++ s2) h /\
      match pin with
      | ANone => False
      | APin (PinInt z) => [z] = map Z.of_nat h
      | APin (PinTuple t) | AList t => t = map Z.of_nat h
      | APin (PinDict d) => length d = length (s1 ++ s2)
      end.
Proof. exact @omega_pins. Qed.
Print Assumptions C53_pins.

(** negative indices, which potential_surf takes, are refused *)
Theorem C53_negative_pin_refuted :
  (exists r, fpot (APin (PinInt (-1))) fgrid = Ok r) /\ fomega (APin (PinInt (-1))) = Err ValueError.
Proof. exact negative_pin. Qed.
Print Assumptions C53_negative_pin_refuted.

(** the hypotheses can be met, beside those of C52 *)
Example C53_witness :
  same_extent (exY, exT, exX) /\ (0 <= 1000 * 1 <= 10000) /\ exact_spsolve ge_spsolve /\ exact_lsqr ge_lsqr
  /\ pins_omega sS 0 sindex (APin (PinInt 1)) [1%nat] /\ init_at [2%nat] [1%nat] 2 (InitScalar (Fin 2))
  /\ init_at [2%nat] [1%nat] 2 (InitArray (mk_data (mk_nd [2%nat] [Fin 1; Fin 2]) None []))
  /\ ml_above [2%nat] [1%nat] 2 (MArray (mk_nd [2%nat] [Fin 9; Fin 1])).
Proof. exact omega_entry_witness. Qed.
(** a run in binary64, the mixed layer computed by mixed_layer *)
Example C53_run : exists s t p d its, fomega (APin (PinInt 1)) = Ok (s, t, p, Some d, its) /\ length its = 1%nat /\ dims p = Some ["x"%string]
  /\ nth_error (elems (arr p)) 1 = Some (lit 600 0)
  /\ exists a b, d_e_RMS d = [a; b] /\ ltb b a = true /\ ltb (lit 0 0) b = true.
Proof. exact fomega_run. Qed.
