(** * Specification vocabulary for omega surfaces in binary64 *)
From Coq Require Import ZArith Reals List SpecFloat.
From Verif Require Import Num XR SF Res S_lib S_float S_domain S_interp S_traj S_vertsolve S_vert64 S_omega.
Import ListNotations.
Local Open Scope R_scope.

(** x is a binary64 number, an infinity or NaN *)
Definition float64 (x : f64) : Prop := finite64 x \/ isfinite x = false.

(** a bottle at a pressure of the range up to pm without salinity and temperature *)
Definition lost (pm : R) (x : bottle64) : Prop := exists p : f64, x = (nan, nan, p) /\ finite64 p /\ 0 <= fval p <= pm.

(** y is where the bottle x of column c goes under the perturbation ϕ of density: nowhere if that is zero; to the water of the column which has,
    at the pressure of x, the density of x increased by ϕ; NaN if ϕ is not a number, or x has no density. *)
Definition moved64 rel (rho : R -> R -> R -> R) (pm tol e d : R) (c : column) (x : bottle64) (ϕ : f64) (y : bottle64) : Prop :=
  (finite64 ϕ /\ fval ϕ = 0 /\ y = x)
  \/ (isfinite ϕ = false /\ y = (nan, nan, nan))
  \/ (finite64 ϕ /\ fval ϕ <> 0 /\ lost pm x /\ y = (nan, nan, nan))
  \/ (finite64 ϕ /\ fval ϕ <> 0 /\ exists vs vt, sampled rel e c x vs vt
        /\ let p := fval (snd x) in surface_point64 rel (potential_of rho p (rho vs vt p + fval ϕ)) tol e d c y).

(** a surface through the columns: each bottle has no pressure (NaN), or is water of its column up to rounding, or is lost *)
Definition surface64 rel (e pm : R) (casts : list column) (x : list bottle64) : Prop :=
  length x = length casts
  /\ forall n b c, nth_error x n = Some b -> nth_error casts n = Some c ->
       snd b = nan \/ lost pm b \/ exists vs vt, sampled rel e c b vs vt.

(** p is the mean of the n numbers qs up to rounding *)
Definition mean64 (qs : list f64) (p : f64) : Prop :=
  let n := INR (length qs) in let m := Rsum (map fval qs) / n in
  finite64 p /\ Rabs (fval p - m) <= (2 * n + 2) * powerRZ 2 (-53) * m.

(** data for which the root finding on a column succeeds *)
Definition column_ok64 (s0 pm : R) (fuel : nat) (tol : R) (c : column) : Prop :=
  any_cast c /\ cast_in (sea s0 pm) c /\ column_spaced c /\ starts_below c /\ enough_fuel64 fuel tol c.

(** The bottle at node m of the surface stp is new: its pressure is the mean of pressures of neutral links from bottles at neighbours
    of m, each taken once; its salinity and temperature are those of the column there, unless rounding has put the mean outside
    of the column. *)
Definition wetted64 rel (rho : R -> R -> R -> R) (tol e d pm : R) (casts : list column) (near : nat -> list nat) (stp : list bottle64) (m : nat) : Prop :=
  exists c ps p x, nth_error casts m = Some c /\ ps <> [] /\ nth_error stp m = Some x /\ snd x = p
    /\ (exists used, map fst ps = filter used (near m))
    /\ (forall n q, In (n, q) ps -> exists c' b vs vt s t, nth_error casts n = Some c' /\ nth_error stp n = Some b /\ sampled rel e c' b vs vt
          /\ surface_point64 rel (neutral_of rho vs vt (fval (snd b))) tol e d c (s, t, q) /\ finite64 q)
    /\ mean64 (map snd ps) p
    /\ ((exists vs vt, sampled rel e c x vs vt)
        \/ (lost pm x /\ exists gS gT lo hi, profile rel c gS gT lo hi /\ (fval p < lo \/ hi < fval p))).

(** the steps between the levels k..K-1 are between w and w' *)
Definition steps (k K : nat) (xs : nat -> R) (w w' : R) : Prop := forall i, (k <= i)%nat -> (S i < K)%nat -> w <= xs (S i) - xs i <= w'.
(** x is a number between a and b *)
Definition inside64 (x : f64) (a b : R) : Prop := finite64 x /\ a <= fval x <= b.

(** On arrays X, Y whose first block of valid data is k..K-1, interp gives the interpolant characterised by rel, up to e; NaN
    outside the range of the block. *)
Definition interpolates64 (interp : f64 -> list f64 -> list f64 -> res f64)
    (rel : nat -> (nat -> R) -> (nat -> R) -> (R -> R) -> Prop) (w w' M e : R) : Prop :=
  forall X Y X' Y' k K xs ys, holds_all X X' -> holds_all Y Y' -> block X' Y' k K xs ys -> (k + 1 < K)%nat -> steps k K xs w w' ->
    (forall i, (k <= i < K)%nat -> Rabs (ys i) <= M) ->
    exists g, rel (K - k)%nat (from k xs) (from k ys) g /\ (forall x, continuity_pt g x) /\ S_traj.within (K - k)%nat (from k xs) (from k ys) g
      /\ forall x : f64, float64 x ->
         (inside64 x (xs k) (xs (K - 1)%nat) -> exists y : f64, interp x X Y = Ok y /\ S_float.within y (g (fval x)) e)
         /\ (~ inside64 x (xs k) (xs (K - 1)%nat) -> interp x X Y = Ok nan).

(** interpolation of a column of sea water at any pressure gives water of the column up to rounding, or NaN outside the column *)
Definition column_interp64 rel (e : R) (interp_two : f64 -> list f64 -> list f64 -> list f64 -> res (f64 * f64)) : Prop :=
  forall s0 pm Sc Tc Pc c' (p : f64), 0 <= s0 -> pm <= 10000 -> holds_column (Sc, Tc, Pc) c' -> any_cast c' -> same_extent c' -> cast_in (sea s0 pm) c' -> column_spaced c' ->
    float64 p ->
    (forall gS gT lo hi, profile rel c' gS gT lo hi -> inside64 p lo hi ->
       exists s t vs vt, interp_two p Pc Sc Tc = Ok (s, t) /\ sampled rel e c' (s, t, p) vs vt)
    /\ ((forall gS gT lo hi, profile rel c' gS gT lo hi -> ~ inside64 p lo hi) -> interp_two p Pc Sc Tc = Ok (nan, nan)).
