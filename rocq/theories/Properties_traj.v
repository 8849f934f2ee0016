(** * Properties C29, C30: neutral tangent plane links and trajectories (traj.py) *)
From Coq Require Import ZArith Bool Reals List SpecFloat.
From Verif Require Import Num XR SF Res Arr M_ppinterp M_traj S_interp S_fzero S_traj P_traj Ex_ppinterp Ex_traj.
Import ListNotations.
Local Open Scope R_scope.

(** ** C29.  [rel] says which interpolant the coefficients of [ppc_fn] belong to
    (instances: C29_linear, C29_pchip), [D] the ranges of salinity, temperature and
    pressure on which the equation of state is defined.  The result does not depend on the fuel
    once that is large enough, so both loops terminate. *)
Theorem C29_ntp_link :
  forall D eos rho, eos_on D eos rho ->
  forall ppc_fn rel, interpolator ppc_fn rel ->
  forall S T P k K ss ts ps, cast S T P k K ss ts ps -> (k + 1 < K)%nat -> cast_in D (S, T, P) ->
  forall sB tB pB tol, 0 < tol -> dS D sB -> dT D tB -> dP D pB ->
    exists gS gT r,
      rel (K - k)%nat (from k ps) (from k ss) gS /\ rel (K - k)%nat (from k ps) (from k ts) gT
      /\ (forall x, continuity_pt gS x) /\ (forall x, continuity_pt gT x)
      /\ (forall x, ps k <= x <= ps (K - 1)%nat -> dS D (gS x) /\ dT D (gT x) /\ dP D x)
      /\ (forall fuel, (13 <= fuel)%nat -> 2 * (ps (K - 1)%nat - ps k) / tol + 1 <= INR fuel ->
           ntp_bottle_to_cast_pub eos ppc_fn fuel (Fin sB) (Fin tB) (Fin pB) S T P (Fin tol) = Ok r)
      /\ let h := ntp_diff rho sB tB pB gS gT in
         ((r = (NaN, NaN, NaN) /\ 0 < h (ps k) * h (ps (K - 1)%nat))
          \/ exists p, r = (Fin (gS p), Fin (gT p), Fin p) /\ ps k <= p <= ps (K - 1)%nat
               /\ near_root h (ps k) (ps (K - 1)%nat) p (brent_tol p tol)).
Proof. exact ntp_bottle_to_cast_correct. Qed.
Print Assumptions C29_ntp_link.

(** With a continuous equation of state there is an exactly neutral point on
    the cast within the tolerance. *)
Theorem C29_neutral_point :
  forall D eos rho ppc_fn rel S T P k K ss ts ps sB tB pB tol,
    eos_on D eos rho -> continuous3 D rho -> interpolator ppc_fn rel ->
    cast S T P k K ss ts ps -> (k + 1 < K)%nat -> cast_in D (S, T, P) -> 0 < tol -> dS D sB -> dT D tB -> dP D pB ->
    exists gS gT r,
      rel (K - k)%nat (from k ps) (from k ss) gS /\ rel (K - k)%nat (from k ps) (from k ts) gT
      /\ (forall fuel, (13 <= fuel)%nat -> 2 * (ps (K - 1)%nat - ps k) / tol + 1 <= INR fuel ->
           ntp_bottle_to_cast_pub eos ppc_fn fuel (Fin sB) (Fin tB) (Fin pB) S T P (Fin tol) = Ok r)
      /\ let h := ntp_diff rho sB tB pB gS gT in
         (r = (NaN, NaN, NaN) /\ 0 < h (ps k) * h (ps (K - 1)%nat)
          \/ exists p q, r = (Fin (gS p), Fin (gT p), Fin p) /\ ps k <= p <= ps (K - 1)%nat
               /\ ps k <= q <= ps (K - 1)%nat /\ h q = 0 /\ Rabs (p - q) <= brent_tol p tol).
Proof. exact ntp_bottle_to_cast_neutral. Qed.
Print Assumptions C29_neutral_point.

Theorem C29_short_cast :
  forall eos ppc_fn fuel sB tB pB tol S T P, short_cast S P ->
    ntp_bottle_to_cast_pub eos ppc_fn fuel sB tB pB S T P tol = Ok (NaN, NaN, NaN).
Proof. exact ntp_short_cast. Qed.
Print Assumptions C29_short_cast.

Theorem C29_linear : forall junk, interpolator (linear_coeffs_1 junk) linear_fun.
Proof. exact linear_interpolator. Qed.
Print Assumptions C29_linear.

Theorem C29_pchip : forall junk, interpolator (pchip_coeffs_1_nonan junk) pchip_fun.
Proof. exact pchip_interpolator. Qed.
Print Assumptions C29_pchip.

(** A bottle without pressure: the code does not return NaN, it never returns. *)
Theorem C29_nan_bottle_refuted :
  forall eos ppc_fn rel S T P k K ss ts ps sB tB tol,
    (forall s t, eos s t NaN = Ok NaN) -> interpolator ppc_fn rel ->
    cast S T P k K ss ts ps -> (k + 1 < K)%nat ->
    forall fuel, ntp_bottle_to_cast_pub eos ppc_fn fuel sB tB NaN S T P tol = Err OutOfFuel.
Proof. exact ntp_nan_bottle. Qed.
Print Assumptions C29_nan_bottle_refuted.

Example C29_witness : cast exY exT exX 1 4 exys exts exxs /\ cast_in exD (exY, exT, exX)
  /\ eos_on exD exeos exrho /\ continuous3 exD exrho /\ dS exD 2 /\ dT exD 1 /\ dP exD 4.
Proof. exact ex_link. Qed.
Example C29_witness_short : short_cast [NaN; Fin 1] [NaN; Fin 2].
Proof. exact ex_short_cast. Qed.

(** ** C30.  Over any number type: what a returned trajectory is. *)
Theorem C30_trajectory :
  forall (F : Type) (N : Num F) eos ppc_fn fuel, isnan (nan : F) = true ->
  forall S0 T0 P0 casts p0 tol (l : list (F * F * F)),
    neutral_trajectory eos ppc_fn fuel ((S0, T0, P0) :: casts) p0 tol = Ok l ->
    exists s t k K Sppc Tppc l',
      l = (s, t, p0) :: l' /\ length l' = length casts
      /\ valid_range_1_two S0 P0 = Ok (k, K)
      /\ ppc_fn (slice P0 k K) (slice S0 k K) = Ok Sppc /\ ppc_fn (slice P0 k K) (slice T0 k K) = Ok Tppc
      /\ ppval_1_nonan_two p0 (slice P0 k K) Sppc Tppc 0 = Ok (s, t)
      /\ forall c Sc Tc Pc, nth_error casts c = Some (Sc, Tc, Pc) ->
         exists b r, nth_error l c = Some b /\ nth_error l (c + 1) = Some r
           /\ (isnan (snd b) = true -> r = (nan, nan, nan))
           /\ (isnan (snd b) = false ->
               let '(s, t, p) := b in ntp_bottle_to_cast_pub eos ppc_fn fuel s t p Sc Tc Pc tol = Ok r).
Proof. exact @neutral_trajectory_spec. Qed.
Print Assumptions C30_trajectory.

(** In exact arithmetic there is always a result, of NaN or wholly finite bottles in the ranges of the data. *)
Theorem C30_total :
  forall D eos rho ppc_fn rel tol fuel p0 Sc Tc Pc k K ss ts ps casts,
    eos_on D eos rho -> interpolator ppc_fn rel -> 0 < tol ->
    cast Sc Tc Pc k K ss ts ps -> (k + 1 < K)%nat -> cast_in D (Sc, Tc, Pc) -> ps k <= p0 <= ps (K - 1)%nat ->
    (forall c, In c casts -> any_cast c /\ cast_in D c /\ enough_fuel fuel tol c) ->
    exists l, neutral_trajectory eos ppc_fn fuel ((Sc, Tc, Pc) :: casts) (Fin p0) (Fin tol) = Ok l
      /\ forall r, In r l -> r = (NaN, NaN, NaN) \/ bottle_in D r.
Proof. exact neutral_trajectory_total. Qed.
Print Assumptions C30_total.

(** A first cast without data makes the whole computation fail. *)
Theorem C30_land_start_refuted :
  exists (casts : list (list f64 * list f64 * list f64)) p0,
    neutral_trajectory feos (linear_coeffs_1 nan) 100 casts p0 (lit 1 (-6)) = Err OutOfBounds.
Proof. exact (ex_intro _ _ (ex_intro _ _ traj_land)). Qed.
Print Assumptions C30_land_start_refuted.

Example C30_witness :
  neutral_trajectory feos (linear_coeffs_1 nan) 100 fcasts (lit 150 0) (lit 1 (-6))
  = Ok [(lit 25 (-1), lit 9 0, lit 150 0); (lit 25 (-1), lit 9 0, lit 49999999999999979 (-15)); (nan, nan, nan)].
Proof. exact traj_run. Qed.
Example C30_witness_total :
  any_cast (exY, exT, exX) /\ cast_in exD (exY, exT, exX) /\ enough_fuel 13 1 (exY, exT, exX) /\ exxs 1 <= 2 <= exxs (4 - 1).
Proof. exact ex_total. Qed.
