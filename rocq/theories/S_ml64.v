(** * Specification vocabulary for the mixed layer in binary64 *)
From Coq Require Import String ZArith Reals List SpecFloat.
From Verif Require Import Num XR SF Res S_float S_eos S_domain S_interp S_traj S_vertsolve S_vert64 S_omega64 S_mixed_layer M_ppinterp.
Import ListNotations.
Local Open Scope R_scope.

(** for each equation of state: the least salinity considered, and a bound on the errors of differences of potential density *)
Inductive excess64 : string -> R -> R -> Prop :=
| ex_jmd95 : excess64 "jmd95" (/ 1000) (dec 6 (-12))
| ex_jmdfwg06 : excess64 "jmdfwg06" (/ 1000) (dec 18 (-12))
| ex_gsw : excess64 "gsw" 0 (dec 11 (-11)).

(** each level lacks data, or has salinity and temperature in the ranges D *)
Definition levels_in (D : domain) (S T : list xr) : Prop :=
  forall i s t, nth_error S i = Some s -> nth_error T i = Some t -> s = NaN \/ exists a b, s = Fin a /\ t = Fin b /\ dS D a /\ dT D b.

(** the schemes of interpolation: the interpolants, and a bound on the rounding errors of interpolated pressures *)
Inductive pressure_scheme64 : string -> (f64 -> list f64 -> list f64 -> nat -> res f64) -> (nat -> (nat -> R) -> (nat -> R) -> (R -> R) -> Prop) -> R -> Prop :=
| ps_linear : pressure_scheme64 "linear" linear_interp_1 linear_fun (dec 2 (-11))
| ps_pchip : pressure_scheme64 "pchip" pchip_interp_1 pchip_fun (dec 3 (-10)).

(** the column, valid at the levels k..K-1, has the excesses ys of potential density and the pressures ps there *)
Record layers (D : domain) (rho : R -> R -> R) (B : nat) (c : column) (k K : nat) (ys ps : nat -> R) : Prop := {
  la_levels : levels_in D (fst (fst c)) (snd (fst c));
  la_bottle : (k <= B < K)%nat;
  la_cast : exists ss ts, cast (fst (fst c)) (snd (fst c)) (snd c) k K ss ts ps /\ ys = excess (fun i => rho (ss i) (ts i)) B;
  la_press : forall i, (k <= i < K)%nat -> dP D (ps i) }.

(** y is, up to e, the value at x of the interpolant of the pressures ps over abscissae within d of ys; NaN if x is outside of their range *)
Definition interpolated64 rel (d e : R) (k K : nat) (ys ps : nat -> R) (x y : f64) : Prop :=
  exists xs g, (forall i, (k <= i < K)%nat -> Rabs (xs i - ys i) <= d) /\ rel (K - k)%nat (from k xs) (from k ps) g
    /\ (inside64 x (xs k) (xs (K - 1)%nat) -> S_float.within y (g (fval x)) e)
    /\ (~ inside64 x (xs k) (xs (K - 1)%nat) -> y = nan).

(** y is the pressure at which the potential density exceeds that of the bottle by x: NaN if the bottle lacks data, or there are no other data
    next to it; otherwise found by interpolation *)
Definition mixed64 rel (D : domain) (rho : R -> R -> R) (B : nat) (d e : R) (c : column) (x y : f64) : Prop :=
  (nth_error (fst (fst c)) B = Some NaN /\ levels_in D (fst (fst c)) (snd (fst c)) /\ y = nan)
  \/ exists k K ys ps, layers D rho B c k K ys ps
       /\ ((K = k + 1)%nat /\ y = nan
           \/ (k + 1 < K)%nat /\ interpolated64 rel d e k K ys ps x y).

(** columns for which it is found: the bottle lacks data, or the stratification is stable, by steps of at least 3 d *)
Definition mixable (D : domain) (rho : R -> R -> R) (B : nat) (d : R) (c : column) : Prop :=
  (nth_error (fst (fst c)) B = Some NaN /\ levels_in D (fst (fst c)) (snd (fst c)))
  \/ exists k K ys ps, layers D rho B c k K ys ps
       /\ forall i, (k <= i)%nat -> (S i < K)%nat -> 3 * d <= ys (S i) - ys i.

(** the threshold x is decided, whatever the profile: it is outside of the range of the first and last excesses, or between them, by more than d *)
Definition decided (D : domain) (rho : R -> R -> R) (B : nat) (d : R) (c : column) (x : f64) : Prop :=
  (nth_error (fst (fst c)) B = Some NaN /\ levels_in D (fst (fst c)) (snd (fst c)))
  \/ exists k K ys ps, layers D rho B c k K ys ps
       /\ (~ finite64 x \/ fval x < ys k - d \/ ys (K - 1)%nat + d < fval x \/ ys k + d < fval x <= ys (K - 1)%nat - d).

(** y is, up to e, a pressure r between the levels i and i+1 at which the excess of potential density, interpolated linearly between these, is x
    up to d; NaN if x is outside of the range of the first and last excesses *)
Definition crossing64 (D : domain) (rho : R -> R -> R) (B : nat) (d e : R) (c : column) (x y : f64) : Prop :=
  (nth_error (fst (fst c)) B = Some NaN /\ levels_in D (fst (fst c)) (snd (fst c)) /\ y = nan)
  \/ exists k K ys ps, layers D rho B c k K ys ps
       /\ ((~ finite64 x \/ fval x < ys k - d \/ ys (K - 1)%nat + d < fval x) /\ y = nan
           \/ exists i r z, (k <= i)%nat /\ (S i < K)%nat /\ S_float.within y r e /\ ps i <= r <= ps (S i)
                /\ between ps ys i z r /\ Rabs (z - fval x) <= d).
