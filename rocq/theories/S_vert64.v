(** * Specification vocabulary for surfaces computed in binary64 *)
From Coq Require Import ZArith Reals String List SpecFloat.
From Verif Require Import Num XR SF Res Arr M_ppinterp M_eos_base M_jmd95 M_jmdfwg06 M_gsw S_eos S_float S_fzero S_fzero64 S_interp S_domain S_named S_traj S_vertsolve.
Import ListNotations.
Local Open Scope R_scope.

(** the binary64 number x holds v, a real number or NaN *)
Definition holds (x : f64) (v : xr) : Prop :=
  match v with
  | Fin r => finite64 x /\ fval x = r
  | NaN => x = S754_nan
  | _ => False
  end.
Definition holds_all : list f64 -> list xr -> Prop := Forall2 holds.

(** arrays of salinity, temperature and pressure *)
Notation column64 := (list f64 * list f64 * list f64)%type.
Notation bottle64 := (f64 * f64 * f64)%type.
Definition holds_column (c : column64) (c' : column) : Prop :=
  let '(Sn, Tn, Pn) := c in let '(Sn', Tn', Pn') := c' in holds_all Sn Sn' /\ holds_all Tn Tn' /\ holds_all Pn Pn'.

(** consecutive levels are at least w, at most w' apart *)
Definition spaced (n : nat) (xs : nat -> R) (w w' : R) : Prop :=
  forall i, (S i < n)%nat -> w <= xs (S i) - xs i <= w'.
(** the column has pressure levels at least 2^-30 apart *)
Definition column_spaced (c : column) : Prop :=
  let '(Sc, Tc, Pc) := c in
  forall k K ss ts ps, cast Sc Tc Pc k K ss ts ps ->
  forall i, (k <= i)%nat -> (S i < K)%nat -> powerRZ 2 (-30) <= ps (S i) - ps i.

(** On arrays of at least two binary64 numbers, the abscissae increasing by steps between w and w',
    the ordinates at most M in magnitude, ppc_fn gives coefficients from which the interpolant
    characterised by rel is evaluated within e. *)
Definition interpolator64 (ppc_fn : list f64 -> list f64 -> res (list (list f64)))
    (rel : nat -> (nat -> R) -> (nat -> R) -> (R -> R) -> Prop) (w w' M e : R) : Prop :=
  forall X Y X' Y' xs ys, holds_all X X' -> holds_all Y Y' -> block X' Y' 0 (length X') xs ys -> (1 < length X')%nat ->
    spaced (length X') xs w w' -> (forall i, (i < length X')%nat -> Rabs (ys i) <= M) ->
    exists C g, ppc_fn X Y = Ok C
      /\ rel (length X') xs ys g /\ (forall x, continuity_pt g x) /\ S_traj.within (length X') xs ys g
      /\ forall x : f64, finite64 x -> xs 0%nat <= fval x <= xs (length X' - 1)%nat ->
         exists y : f64, ppval_1_nonan x X C 0 = Ok y /\ S_float.within y (g (fval x)) e.

(** for water in the ranges D, known up to es (salinity), et (temperature) and ep (pressure),
    [eos] is within d of the real function rho, whose values are at most B in magnitude *)
Definition eos64_on (D : domain) (eos : f64 -> f64 -> f64 -> res f64) (rho : R -> R -> R -> R) (es et ep d B : R) : Prop :=
  forall (s t p : f64) vs vt vp, dS D vs -> dT D vt -> dP D vp ->
    S_float.within s vs es -> S_float.within t vt et -> S_float.within p vp ep ->
    Rabs (rho vs vt vp) <= B /\ exists y : f64, eos s t p = Ok y /\ S_float.within y (rho vs vt vp) d.

(** h has the same sign at lo and hi, or is within d of zero at one of them *)
Definition no_change_up_to (d : R) (h : R -> R) (lo hi : R) : Prop :=
  ~ (h lo < - d /\ d < h hi) /\ ~ (d < h lo /\ h hi < - d).

(** x = (s, t, p) is the point of the surface H(s, t, p) = 0 on column c: s and t are within e of
    the profiles at p, and p is within the root finder's tolerance of a pressure at which H is
    within d of zero.  All NaN if there is too little data, or H does not change sign between the
    ends of the column (by more than d). *)
Definition surface_point64 rel (H : R -> R -> R -> R) (tol e d : R) (c : column) (x : bottle64) : Prop :=
  (short_cast (fst (fst c)) (snd c) /\ x = (nan, nan, nan))
  \/ exists gS gT lo hi, profile rel c gS gT lo hi /\
       let h p := H (gS p) (gT p) p in
       (x = (nan, nan, nan) /\ no_change_up_to d h lo hi)
       \/ exists s t p r, x = (s, t, p) /\ finite64 p /\ lo <= fval p <= hi
            /\ S_float.within s (gS (fval p)) e /\ S_float.within t (gT (fval p)) e
            /\ lo <= r <= hi /\ Rabs (h r) <= d /\ Rabs (fval p - r) <= brent_tol (fval p) tol * (1 + powerRZ 2 (-50)).

(** the fuel suffices for root searches on the column *)
Definition enough_fuel64 (fuel : nat) (tol : R) (c : column) : Prop :=
  (13 <= fuel)%nat /\ let '(Sc, Tc, Pc) := c in
  forall k K ss ts ps, cast Sc Tc Pc k K ss ts ps -> 5 * (ps (K - 1)%nat - ps k) / tol + 1 <= INR fuel.

(** ranges of sea water: salinity from s0 to 42, temperature from -3 to 40, pressure (or depth) up to pm *)
Definition sea (s0 pm : R) : domain := box s0 42 (-3) 40 0 pm.

(** The schemes of interpolation, by name: the function of the code that computes coefficients, the interpolants they stand for, and a bound
    on the rounding errors of interpolated salinities and temperatures. *)
Inductive scheme64 : string -> (f64 -> list f64 -> list f64 -> res (list (list f64))) -> (nat -> (nat -> R) -> (nat -> R) -> (R -> R) -> Prop) -> R -> Prop :=
| linear_64 : scheme64 "linear" linear_coeffs_1 linear_fun (dec 1 (-13))
| pchip_64 : scheme64 "pchip" pchip_coeffs_1_nonan pchip_fun (dec 1 (-12)).

(** for each equation of state and error of salinities and temperatures, a bound on the errors of differences of density with a constant *)
Inductive margin64 : string -> R -> R -> Prop :=
| margin_jmd95 : margin64 "jmd95" (dec 1 (-13)) (dec 3 (-12))
| margin_jmd95' : margin64 "jmd95" (dec 1 (-12)) (dec 18 (-12))
| margin_jmdfwg06 : margin64 "jmdfwg06" (dec 1 (-13)) (dec 9 (-12))
| margin_jmdfwg06' : margin64 "jmdfwg06" (dec 1 (-12)) (dec 55 (-12))
| margin_gsw : margin64 "gsw" (dec 1 (-13)) (dec 2 (-17))
| margin_gsw' : margin64 "gsw" (dec 1 (-12)) (dec 14 (-17)).

(** The functions of the code that compute each equation of state, the real function it stands for, the least
    salinity considered, the error e of salinities and temperatures, a bound d on the errors of differences with a
    constant, and a bound B on the values.  (Near salinity zero the square root in the first two magnifies errors.) *)
Inductive base64 : (f64 -> f64 -> f64 -> res f64) -> (R -> R -> R -> R) -> R -> R -> R -> R -> Prop :=
| jmd95_64 dv e d : dv = sdiv \/ dv = adiv -> margin64 "jmd95" e d -> base64 (jmd95_rho dv) jm_rho (/ 1000) e d (dec 1100 0)
| jmdfwg06_64 dv e d : dv = sdiv \/ dv = adiv -> margin64 "jmdfwg06" e d -> base64 (jmdfwg06_rho dv) jf_rho (/ 1000) e d (dec 1600 0)
| gsw_64 e d : margin64 "gsw" e d -> base64 gsw_specvol teos_v 0 e d (dec 15 (-4)).
(** The same as functions of pressure up to pm = 10000 dbar, or of depth up to pm, the unit of which is the
    pressure zp, known up to rounding. *)
Inductive named64 : (f64 -> f64 -> f64 -> res f64) -> (R -> R -> R -> R) -> R -> R -> R -> R -> R -> Prop :=
| pressure_64 eos rho s0 e d B : base64 eos rho s0 e d B -> named64 eos rho s0 10000 e d B
| depth_64 eos rho s0 e d B (fz : f64) zp pm : base64 eos rho s0 e d B -> S_float.within fz zp (dec 4 (-16) * zp) -> / 2 <= zp <= 3 / 2 ->
    0 <= pm <= 10000 -> pm * zp <= 10000 -> named64 (fun s t z => eos s t (mul z fz)) (at_depth zp rho) s0 pm e d B.

(** the difference in density between the bottle (sB, tB, pB) and water (s, t, p), at the mean pressure *)
Definition neutral_of (rho : R -> R -> R -> R) (sB tB pB s t p : R) : R :=
  rho sB tB ((pB + p) / 2) - rho s t ((pB + p) / 2).

(** the pressure p, brought into the range of the column, is not extremely close to either end unless it is there *)
Definition guess_apart (p : R) (c : column) : Prop :=
  let '(Sc, Tc, Pc) := c in
  forall k K ss ts ps, cast Sc Tc Pc k K ss ts ps ->
    let g := Rmin (Rmax p (ps k)) (ps (K - 1)%nat) in apart (ps k) g /\ apart g (ps (K - 1)%nat).
(** the shallowest level is at a positive pressure, at least 2^-900 *)
Definition starts_below (c : column) : Prop :=
  let '(Sc, Tc, Pc) := c in forall k K ss ts ps, cast Sc Tc Pc k K ss ts ps -> powerRZ 2 (-900) <= ps k.

(** the bottle x is on column c, and (vs, vt) is the water of the column there *)
Definition sampled rel (e : R) (c : column) (x : bottle64) (vs vt : R) : Prop :=
  exists gS gT lo hi s t p, profile rel c gS gT lo hi /\ x = (s, t, p) /\ finite64 p /\ lo <= fval p <= hi
    /\ vs = gS (fval p) /\ vt = gT (fval p) /\ S_float.within s vs e /\ S_float.within t vt e.

(** l continues the trajectory from bottle x of column c over the columns cs: each bottle is neutral with the water of
    the column before; once a bottle is NaN all others are *)
Inductive neutral_chain rel (rho : R -> R -> R -> R) (tol e d : R) : column -> bottle64 -> list column -> list bottle64 -> Prop :=
| chain_end c x : neutral_chain rel rho tol e d c x [] []
| chain_lost c cs : neutral_chain rel rho tol e d c (nan, nan, nan) cs (repeat (nan, nan, nan) (length cs))
| chain_link c x vs vt c' x' cs l : sampled rel e c x vs vt ->
    surface_point64 rel (neutral_of rho vs vt (fval (snd x))) tol e d c' x' ->
    neutral_chain rel rho tol e d c' x' cs l -> neutral_chain rel rho tol e d c x (c' :: cs) (x' :: l).

(** h increases, or decreases, everywhere at the rate m at least *)
Definition steep (m : R) (h : R -> R) (lo hi : R) : Prop :=
  (forall y z, lo <= y -> y <= z -> z <= hi -> m * (z - y) <= h z - h y)
  \/ (forall y z, lo <= y -> y <= z -> z <= hi -> m * (z - y) <= h y - h z).
