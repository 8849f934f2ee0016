(** * Properties C33, C34, C35: surfaces found column by column
    (surface/_vertsolve.py, surface/isopycnal.py) *)
From Coq Require Import ZArith Bool Reals List SpecFloat.
From Verif Require Import Num XR SF Res Arr Nd M_ppinterp M_vertsolve S_interp S_fzero S_traj S_vertsolve S_args
  P_vertsolve P_isopycnal P_args Ex_ppinterp Ex_traj Ex_vertsolve.
Import ListNotations.
Local Open Scope R_scope.

(** ** C33.  The result does not depend on the fuel, once that suffices for both loops on each column. *)
Theorem C33_potential :
  forall ppc_fn rel, interpolator ppc_fn rel -> forall tol, 0 < tol ->
  forall D eos rho, eos_on D eos rho ->
  forall ref isoval casts, dP D ref -> Forall any_cast casts -> Forall (cast_in D) casts ->
    exists x, (forall fuel, Forall (enough_fuel fuel tol) casts ->
        vertsolve ppc_fn fuel (zero_potential eos (Fin ref) (Fin isoval)) (Fin tol) casts = Ok x)
      /\ Forall2 (surface_point rel (potential_of rho ref isoval) tol) casts x.
Proof. exact vertsolve_potential. Qed.
Print Assumptions C33_potential.

Theorem C33_anomaly :
  forall ppc_fn rel, interpolator ppc_fn rel -> forall tol, 0 < tol ->
  forall D eos rho, eos_on D eos rho ->
  forall s0 t0 isoval casts, dS D s0 -> dT D t0 -> Forall any_cast casts -> Forall (cast_in D) casts ->
    exists x, (forall fuel, Forall (enough_fuel fuel tol) casts ->
        vertsolve ppc_fn fuel (zero_anomaly eos (Fin s0, Fin t0) (Fin isoval)) (Fin tol) casts = Ok x)
      /\ Forall2 (surface_point rel (anomaly_of rho s0 t0 isoval) tol) casts x.
Proof. exact vertsolve_anomaly. Qed.
Print Assumptions C33_anomaly.

(** a point of the surface is within the tolerance of an exact solution *)
Theorem C33_exact_root :
  forall D rel H tol c r, 0 < tol -> continuous3 D H -> cast_in D c -> surface_point rel H tol c r ->
    r = (NaN, NaN, NaN) \/ exists gS gT lo hi p q, profile rel c gS gT lo hi /\ r = (Fin (gS p), Fin (gT p), Fin p)
      /\ lo <= p <= hi /\ lo <= q <= hi /\ H (gS q) (gT q) q = 0 /\ Rabs (p - q) <= brent_tol p tol.
Proof. exact surface_root. Qed.
Print Assumptions C33_exact_root.
Theorem C33_continuous : forall D rho, continuous3 D rho ->
  (forall ref isoval, dP D ref -> continuous3 D (potential_of rho ref isoval))
  /\ forall s0 t0 isoval, dS D s0 -> dT D t0 -> continuous3 D (anomaly_of rho s0 t0 isoval).
Proof. exact (fun D rho H => conj (fun ref v Hr => continuous_potential D rho ref v Hr H) (fun s t v Hs Ht => continuous_anomaly D rho s t v Hs Ht H)). Qed.
Print Assumptions C33_continuous.

(** on a stably stratified column the solution is found whenever there is one *)
Theorem C33_stratified :
  forall rel H tol c r, 0 < tol -> surface_point rel H tol c r ->
    (short_cast (fst (fst c)) (snd c) /\ r = (NaN, NaN, NaN))
    \/ exists gS gT lo hi, profile rel c gS gT lo hi /\
         let h p := H (gS p) (gT p) p in
         strictly_monotone h lo hi -> forall q, lo <= q <= hi -> h q = 0 ->
         exists p, r = (Fin (gS p), Fin (gT p), Fin p) /\ lo <= p <= hi /\ Rabs (p - q) <= brent_tol p tol.
Proof. exact surface_monotone. Qed.
Print Assumptions C33_stratified.

Example C33_witness : Forall any_cast (elems vcasts) /\ Forall (cast_in exD) (elems vcasts)
  /\ Forall (enough_fuel 13 1) (elems vcasts) /\ eos_on exD exeos exrho /\ continuous3 exD exrho.
Proof. exact (conj vcasts_any (conj vcasts_in (conj vcasts_fuel (conj (exeos_on exD) (exrho_continuous exD))))). Qed.

(** ** C34 *)

(** exactly which arguments pass the checks; [given_ref], [given_iso]: not None *)
Theorem C34_check :
  forall (F : Type) a (ref : @refarg F) isoval pin_cast (pin_p : @pinp F) sh,
    check_ref a ref isoval pin_cast pin_p sh = Ok tt <->
      (if given_ref ref then given_iso isoval = true \/ (pin_cast <> CNone /\ pin_p <> PNone)
       else pin_cast <> CNone /\ pin_p <> PNone)
      /\ match ref with
         | RNone => True
         | RFloat _ => a = Potential
         | RPair _ _ => a = Anomaly
         | ROther => False
         end
      /\ may_index sh pin_cast /\ pin_p <> POther.
Proof. exact @check_iff. Qed.
Print Assumptions C34_check.

(** reference and isovalue, no pinning pressure *)
Theorem C34_potential_isovalue :
  forall ppc_fn rel, interpolator ppc_fn rel -> forall tol, 0 < tol ->
  forall D eos rho, eos_on D eos rho -> forall nz casts, Forall any_cast (elems casts) -> Forall (cast_in D) (elems casts) ->
  forall ref isoval pin_cast, dP D ref -> may_index (shape casts ++ [nz]) pin_cast ->
    exists x, (forall fuel, Forall (enough_fuel fuel tol) (elems casts) ->
        isopycnal eos ppc_fn fuel Potential (RFloat (Fin ref)) (Some (Fin isoval)) pin_cast PNone nz casts (Fin tol)
        = Ok (x, RFloat (Fin ref), Fin isoval))
      /\ Forall2 (surface_point rel (potential_of rho ref isoval) tol) (elems casts) x.
Proof. exact (fun p r Hp tol Ht D eos rho He nz casts H1 H2 ref iso pc Hd Hc => potential_unpinned p r Hp tol Ht D eos rho He nz casts H1 H2 ref iso pc Hd (proj1 (may_can _ _) Hc)). Qed.
Print Assumptions C34_potential_isovalue.

Theorem C34_anomaly_isovalue :
  forall ppc_fn rel, interpolator ppc_fn rel -> forall tol, 0 < tol ->
  forall D eos rho, eos_on D eos rho -> forall nz casts, Forall any_cast (elems casts) -> Forall (cast_in D) (elems casts) ->
  forall s0 t0 isoval pin_cast, dS D s0 -> dT D t0 -> may_index (shape casts ++ [nz]) pin_cast ->
    exists x, (forall fuel, Forall (enough_fuel fuel tol) (elems casts) ->
        isopycnal eos ppc_fn fuel Anomaly (RPair (Some (Fin s0)) (Some (Fin t0))) (Some (Fin isoval)) pin_cast PNone nz casts (Fin tol)
        = Ok (x, RPair (Some (Fin s0)) (Some (Fin t0)), Fin isoval))
      /\ Forall2 (surface_point rel (anomaly_of rho s0 t0 isoval) tol) (elems casts) x.
Proof. exact (fun p r Hp tol Ht D eos rho He nz casts H1 H2 s0 t0 iso pc Hd Hd' Hc => anomaly_unpinned p r Hp tol Ht D eos rho He nz casts H1 H2 s0 t0 iso pc Hd Hd' (proj1 (may_can _ _) Hc)). Qed.
Print Assumptions C34_anomaly_isovalue.

(** A pinning point (and possibly a reference, or a reference and an isovalue):
    the surface goes exactly through it. *)
Theorem C34_potential_pinned :
  forall ppc_fn rel, interpolator ppc_fn rel -> forall tol, 0 < tol ->
  forall D eos rho, eos_on D eos rho -> forall nz casts, Forall any_cast (elems casts) -> Forall (cast_in D) (elems casts) ->
  forall (ref isoval : option R) t n pp, (ref = None -> isoval = None) -> (forall r, ref = Some r -> dP D r) -> pin_ok casts t n pp ->
    exists gS gT x rv iv,
      pinned_at rel casts t n pp gS gT
      /\ (forall fuel, Forall (enough_fuel fuel tol) (elems casts) ->
            isopycnal eos ppc_fn fuel Potential
              (match ref with Some r => RFloat (Fin r) | None => RNone end)
              (match isoval with Some v => Some (Fin v) | None => None end)
              (CTuple t) (PFloat (Fin pp)) nz casts (Fin tol)
            = Ok (x, RFloat (Fin rv), Fin iv))
      /\ rv = match ref with Some r => r | None => pp end
      /\ iv = match isoval with Some v => v | None => rho (gS pp) (gT pp) rv end
      /\ nth_error x n = Some (Fin (gS pp), Fin (gT pp), Fin pp)
      /\ length x = length (elems casts)
      /\ (forall m c r, m <> n -> nth_error (elems casts) m = Some c -> nth_error x m = Some r ->
            surface_point rel (potential_of rho rv iv) tol c r).
Proof. exact potential_pinned. Qed.
Print Assumptions C34_potential_pinned.

Theorem C34_anomaly_pinned :
  forall ppc_fn rel, interpolator ppc_fn rel -> forall tol, 0 < tol ->
  forall D eos rho, eos_on D eos rho -> forall nz casts, Forall any_cast (elems casts) -> Forall (cast_in D) (elems casts) ->
  forall (ref : option (R * R)) (isoval : option R) t n pp, (ref = None -> isoval = None) ->
    (forall r, ref = Some r -> dS D (fst r) /\ dT D (snd r)) -> pin_ok casts t n pp ->
    exists gS gT x s0 t0 iv,
      pinned_at rel casts t n pp gS gT
      /\ (forall fuel, Forall (enough_fuel fuel tol) (elems casts) ->
            isopycnal eos ppc_fn fuel Anomaly
              (match ref with Some r => RPair (Some (Fin (fst r))) (Some (Fin (snd r))) | None => RNone end)
              (match isoval with Some v => Some (Fin v) | None => None end)
              (CTuple t) (PFloat (Fin pp)) nz casts (Fin tol)
            = Ok (x, RPair (Some (Fin s0)) (Some (Fin t0)), Fin iv))
      /\ (s0, t0) = match ref with Some r => r | None => (gS pp, gT pp) end
      /\ iv = match isoval with Some v => v | None => rho (gS pp) (gT pp) pp - rho s0 t0 pp end
      /\ nth_error x n = Some (Fin (gS pp), Fin (gT pp), Fin pp)
      /\ length x = length (elems casts)
      /\ (forall m c r, m <> n -> nth_error (elems casts) m = Some c -> nth_error x m = Some r ->
            surface_point rel (anomaly_of rho s0 t0 iv) tol c r).
Proof. exact anomaly_pinned. Qed.
Print Assumptions C34_anomaly_pinned.

(** A pinning pressure outside the column is not rejected: the surface consists
    of one pressure without salinity and temperature. *)
Theorem C34_pin_outside :
  forall ppc_fn rel, interpolator ppc_fn rel ->
  forall tol D eos rho, eos_on D eos rho -> forall nz casts, Forall any_cast (elems casts) -> Forall (cast_in D) (elems casts) ->
  (forall p, eos NaN NaN p = Ok NaN) ->
  forall ref t ix c k K ss ts ps pp fuel,
    indexes (shape casts) ix t -> nth_error (elems casts) (ravel (shape casts) ix) = Some c ->
    cast (fst (fst c)) (snd (fst c)) (snd c) k K ss ts ps -> (k + 1 < K)%nat -> pp < ps k \/ ps (K - 1)%nat < pp ->
    dP D (match ref with Some r => r | None => pp end) ->
    Forall (enough_fuel fuel tol) (elems casts) ->
    exists x rv,
      isopycnal eos ppc_fn fuel Potential (match ref with Some r => RFloat (Fin r) | None => RNone end) None
        (CTuple t) (PFloat (Fin pp)) nz casts (Fin tol)
      = Ok (x, RFloat (Fin rv), NaN)
      /\ length x = length (elems casts)
      /\ nth_error x (ravel (shape casts) ix) = Some (NaN, NaN, Fin pp)
      /\ (forall m r, m <> ravel (shape casts) ix -> nth_error x m = Some r -> r = (NaN, NaN, NaN)).
Proof. exact potential_pinned_outside. Qed.
Print Assumptions C34_pin_outside.

(** pin_cast and pin_p are used although ref and isoval are given; pin_p without
    pin_cast then makes the computation fail *)
Theorem C34_pin_ignored_refuted :
  exists ref isoval pp,
    on_column (run Potential (RFloat ref) (Some isoval) CNone PNone) 1
      <> on_column (run Potential (RFloat ref) (Some isoval) (CTuple [1%Z]) (PFloat pp)) 1
    /\ on_column (run Potential (RFloat ref) (Some isoval) (CTuple [1%Z]) (PFloat pp)) 1 = Some (lit 3 0, lit 9 0, pp)
    /\ run Potential (RFloat ref) (Some isoval) CNone (PFloat pp) = Err TypeError.
Proof. exact (ex_intro _ _ (ex_intro _ _ (ex_intro _ _ run_pin_not_ignored))). Qed.
Print Assumptions C34_pin_ignored_refuted.

(** arguments that pass the checks but cannot be used: an isovalue without
    reference; a list as pin_cast (documented as allowed); a tuple that also indexes the vertical *)
Theorem C34_accepted_refuted :
  (exists isoval pp, check_ref Potential RNone (Some isoval) (CTuple [1%Z]) (PFloat pp) [3; 3]%nat = Ok tt
     /\ run Potential RNone (Some isoval) (CTuple [1%Z]) (PFloat pp) = Err TypeError)
  /\ (exists pp : f64, check_ref Potential RNone None (CList [1%Z]) (PFloat pp) [3; 3]%nat = Ok tt
     /\ run Potential RNone None (CList [1%Z]) (PFloat pp) = Err TypeError)
  /\ (exists pp : f64, check_ref Potential RNone None (CTuple [1; 1]%Z) (PFloat pp) [3; 3]%nat = Ok tt
     /\ run Potential RNone None (CTuple [1; 1]%Z) (PFloat pp) = Err TypeError).
Proof. exact (conj (ex_intro _ _ (ex_intro _ _ run_undocumented)) (conj (ex_intro _ _ run_list) (ex_intro _ _ run_too_many))). Qed.
Print Assumptions C34_accepted_refuted.

Example C34_witness : pin_ok vcasts [(-2)%Z] 0 2 /\ Forall any_cast (elems vcasts) /\ Forall (cast_in exD) (elems vcasts)
  /\ Forall (enough_fuel 13 1) (elems vcasts).
Proof. exact (conj vcasts_pin (conj vcasts_any (conj vcasts_in vcasts_fuel))). Qed.
Example C34_witness_outside :
  forall p, exeos NaN NaN p = Ok NaN.
Proof. exact exeos_nan. Qed.
Example C34_witness_run :
  on_column (run Potential RNone None (CTuple [1%Z]) (PFloat (lit 50 0))) 1 = Some (lit 25 (-1), lit 9 0, lit 50 0).
Proof. exact run_pinned. Qed.

(** ** C35.  [omega_input]: the perturbation is 0 or NaN, or the surface has a point there. *)
Theorem C35_omega_update :
  forall ppc_fn rel, interpolator ppc_fn rel -> forall tol, 0 < tol ->
  forall eos rho D, eos_on D eos rho ->
  forall xs casts ϕ, length casts = length xs -> length ϕ = length xs -> Forall any_cast casts -> Forall (cast_in D) casts ->
    (forall n x f, nth_error xs n = Some x -> nth_error ϕ n = Some f -> omega_input D x f) ->
    exists ys, (forall fuel, Forall (enough_fuel fuel tol) casts ->
        vertsolve_omega eos ppc_fn fuel (Fin tol) xs casts ϕ = Ok ys)
      /\ length ys = length xs
      /\ forall n x c f y, nth_error xs n = Some x -> nth_error casts n = Some c -> nth_error ϕ n = Some f ->
           nth_error ys n = Some y -> omega_output rel rho tol c x f y.
Proof. exact vertsolve_omega_correct. Qed.
Print Assumptions C35_omega_update.

(** a column without surface but with a finite perturbation: the search never ends *)
Theorem C35_missing_surface_diverges :
  forall ppc_fn rel, interpolator ppc_fn rel -> forall tol eos c k K ss ts ps s t d,
    (forall s t, eos s t NaN = Ok NaN) -> cast (fst (fst c)) (snd (fst c)) (snd c) k K ss ts ps -> (k + 1 < K)%nat -> d <> 0 ->
    forall fuel, vertsolve_omega_1 eos ppc_fn fuel (Fin tol) (s, t, NaN) c (Fin d) = Err OutOfFuel.
Proof. exact omega_nan_pressure. Qed.
Print Assumptions C35_missing_surface_diverges.

Example C35_witness :
  omega_input exD (Fin 1, Fin 2, Fin 3) (Fin 1) /\ omega_input exD (NaN, NaN, NaN) NaN /\ omega_input exD (NaN, NaN, NaN) (Fin 0).
Proof. exact omega_inputs. Qed.
Example C35_witness_nan : forall s t, exeos s t NaN = Ok NaN.
Proof. exact exeos_nan_p. Qed.
