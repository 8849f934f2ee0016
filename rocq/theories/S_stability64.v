(** * Specification vocabulary for static stability in binary64 *)
From Coq Require Import String ZArith Reals List SpecFloat.
From Verif Require Import Num XR SF Res Nd S_eos S_float S_domain S_vertsolve S_vert64 M_stability S_stability.
Import ListNotations.
Local Open Scope R_scope.

(** for each equation of state for density: the least salinity considered, and a bound on the errors of differences of density *)
Inductive pair64 : string -> R -> R -> Prop :=
| pair_jmd95 : pair64 "jmd95" (/ 1000) (dec 6 (-12))
| pair_jmdfwg06 : pair64 "jmdfwg06" (/ 1000) (dec 18 (-12)).

(** each level lacks data, or has salinity and temperature in the ranges D; its pressure is missing or in the range *)
Definition known_levels (D : domain) (c : column) : Prop :=
  forall i s t p, nth_error (fst (fst c)) i = Some s -> nth_error (snd (fst c)) i = Some t -> nth_error (snd c) i = Some p ->
    (s = NaN \/ exists a b, s = Fin a /\ t = Fin b /\ dS D a /\ dT D b) /\ (p = NaN \/ exists q, p = Fin q /\ dP D q).

(** level i of the column c has the data s, t, p *)
Definition level (c : column) (i : nat) (s t p : R) : Prop :=
  nth_error (fst (fst c)) i = Some (Fin s) /\ nth_error (snd (fst c)) i = Some (Fin t) /\ nth_error (snd c) i = Some (Fin p).

(** the water at level k is denser by x than the next below it, both moved to their mean pressure *)
Definition denser (rho : R -> R -> R -> R) (c : column) (k : nat) (x : R) : Prop :=
  exists s t p s' t' p', level c k s t p /\ level c (k + 1) s' t' p' /\ x = rho s t ((p + p') / 2) - rho s' t' ((p + p') / 2).
(** in the column c, the water at level k and the next have the same salinity and temperature, and the pressures of both are known *)
Definition same_water (c : list f64 * list f64 * list f64) (k : nat) : Prop :=
  exists s t p p' : f64, finite64 s /\ finite64 t /\ finite64 p /\ finite64 p'
    /\ nth_error (fst (fst c)) k = Some s /\ nth_error (fst (fst c)) (k + 1) = Some s
    /\ nth_error (snd (fst c)) k = Some t /\ nth_error (snd (fst c)) (k + 1) = Some t
    /\ nth_error (snd c) k = Some p /\ nth_error (snd c) (k + 1) = Some p'.

(** ** Stabilising *)
(** for each equation of state for density: the least salinity considered, and a bound on the errors of gradients, times the difference of pressure *)
Inductive grad64 : string -> R -> R -> Prop :=
| grad_jmd95 : grad64 "jmd95" (/ 1000) (dec 8 (-12))
| grad_jmdfwg06 : grad64 "jmdfwg06" (/ 1000) (dec 20 (-12)).

(** the waters at the levels k..K-1 are in the ranges D; pressures are at least 1/1000 apart *)
Definition waters (D : domain) (k K : nat) (ss ts : nat -> R) : Prop := forall i, (k <= i < K)%nat -> dS D (ss i) /\ dT D (ts i).
Definition pressures (D : domain) (k K : nat) (ps : nat -> R) : Prop :=
  (forall i, (k <= i < K)%nat -> dP D (ps i)) /\ forall i, (k <= i)%nat -> (i + 1 < K)%nat -> / 1000 <= ps (i + 1)%nat - ps i.

(** the thresholds m, lowered by eps, and by d for the difference of density *)
Definition lower (m : nat -> R) (eps d : R) (ps : nat -> R) (i : nat) : R := m i - eps - d / (ps (i + 1)%nat - ps i).

(** one finite threshold, or one for each pair of the n levels *)
Definition thresholds64 (a : @scalar_or_array f64) (n : nat) (m : nat -> R) : Prop :=
  (forall i, Rabs (m i) <= 1000000) /\
  match a with
  | Scalar x => finite64 x /\ forall i, m i = fval x
  | Vector l => length l = (n - 1)%nat /\ forall i, (i < n - 1)%nat -> exists x, nth_error l i = Some x /\ finite64 x /\ fval x = m i
  end.

(** the optimiser, when it reports success, returns as many numbers as it was given to start, which meet the constraints within eps *)
Definition feasible64 (eps : R)
    (minimize : (f64 -> list f64 -> f64) -> list f64 -> f64 -> (f64 -> list f64 -> list f64) -> (list f64 -> res (list f64)) -> res (bool * list f64)) : Prop :=
  forall f x0 w j con x, minimize f x0 w j con = Ok (true, x) ->
    length x = length x0 /\ exists g, con x = Ok g /\ forall y, In y g -> finite64 y /\ - eps <= fval y.

(** the levels k..K-1 of the column S, T hold the numbers ss, ts *)
Definition holds_water (S T : list f64) (k K : nat) (ss ts : nat -> R) : Prop :=
  forall i, (k <= i < K)%nat -> exists s t, nth_error S i = Some s /\ nth_error T i = Some t /\ holds s (Fin (ss i)) /\ holds t (Fin (ts i)).

(** nothing known, or a profile with waters and pressures in the ranges *)
Definition sea_column (D : domain) (c : column) : Prop :=
  all_missing (fst (fst c)) \/ exists k K ss ts ps, profile (fst (fst c)) (snd (fst c)) (snd c) k K ss ts ps /\ waters D k K ss ts /\ pressures D k K ps.

(** Sn, Tn is the column S, T (which holds c) after stabilisation to the thresholds m within eps and the error d *)
Definition stabilized64 (rho : R -> R -> R -> R) (D : domain) (m : nat -> R) (eps d : R) (c : column) (S T Sn Tn : list f64) : Prop :=
  (all_missing (fst (fst c)) -> Sn = S /\ Tn = T)
  /\ forall k K ss ts ps, profile (fst (fst c)) (snd (fst c)) (snd c) k K ss ts ps -> waters D k K ss ts -> pressures D k K ps ->
       (stable rho (lower m 0 (- d) ps) k K ss ts ps -> Sn = S /\ Tn = T)
       /\ (Sn = S /\ Tn = T /\ stable rho (lower m 0 d ps) k K ss ts ps
           \/ length Sn = length S /\ length Tn = length T
              /\ (forall i, (i < k \/ K <= i)%nat -> nth_error Sn i = nth_error S i /\ nth_error Tn i = nth_error T i)
              /\ forall ss' ts', holds_water Sn Tn k K ss' ts' -> waters D k K ss' ts' ->
                   stable rho (lower m ((1 + powerRZ 2 (-50)) * eps) d ps) k K ss' ts' ps).
