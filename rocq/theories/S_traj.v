(** * Specification vocabulary for neutral tangent planes and trajectories *)
From Coq Require Import Reals List Lia.
From Verif Require Import Num XR Res Arr M_ppinterp S_interp S_fzero.
From Verif Require Export S_domain.
Import ListNotations.
Local Open Scope R_scope.

(** the values of g between the first and the last of the n points (xs i, ys i)
    are in every interval that holds all the ys *)
Definition within (n : nat) (xs ys : nat -> R) (g : R -> R) : Prop :=
  forall C, interval C -> (forall i, (i < n)%nat -> C (ys i)) ->
  forall x, xs 0%nat <= x <= xs (n - 1)%nat -> C (g x).

(** g is the piecewise linear function through the n points (xs i, ys i) *)
Definition linear_fun (n : nat) (xs ys : nat -> R) (g : R -> R) : Prop :=
  forall x i, in_piece 0 n xs x i -> g x = ys i + (x - xs i) * secant xs ys i.

(** g is the PCHIP interpolant: on each piece the cubic with the values ys and slopes pchip_slope at the ends *)
Definition pchip_fun (n : nat) (xs ys : nat -> R) (g : R -> R) : Prop :=
  forall x i, in_piece 0 n xs x i ->
    let h := width xs i in let δ := secant xs ys i in
    let d0 := pchip_slope 0 n xs ys i in let d1 := pchip_slope 0 n xs ys (S i) in
    let s := x - xs i in
    g x = ys i + s * d0 + s * s * ((3 * δ - 2 * d0 - d1) / h) + s * s * s * ((d0 - 2 * δ + d1) / (h * h)).

(** On NaN-free data with at least two points, ppc_fn gives the coefficients of
    a continuous interpolant characterised by [rel], which stays within the data. *)
Definition interpolator (ppc_fn : list xr -> list xr -> res (list (list xr)))
    (rel : nat -> (nat -> R) -> (nat -> R) -> (R -> R) -> Prop) : Prop :=
  forall X Y xs ys, block X Y 0 (length X) xs ys -> (1 < length X)%nat ->
    exists C g, ppc_fn X Y = Ok C /\ last_col C = Y
      /\ rel (length X) xs ys g /\ (forall x, continuity_pt g x) /\ within (length X) xs ys g
      /\ forall x, xs 0%nat <= x <= xs (length X - 1)%nat -> ppval_1 (Fin x) X C 0 = Ok (Fin (g x)).

(** A cast (S, T, P) whose first block of valid data is k..K-1; T is valid there too *)
Record cast (S T P : list xr) (k K : nat) (ss ts ps : nat -> R) : Prop := mkcast {
  cast_blk : block P S k K ps ss;
  cast_lenT : length T = length P;
  cast_T : forall i, (k <= i < K)%nat -> nth_error T i = Some (Fin (ts i))
}.

(** the part of a cast's values from level k on *)
Definition from (k : nat) (f : nat -> R) (i : nat) : R := f (k + i)%nat.

(** difference of potential density between bottle (sB,tB,pB) and the cast
    (gS,gT) at p, referenced to the mean pressure *)
Definition ntp_diff (rho : R -> R -> R -> R) (sB tB pB : R) (gS gT : R -> R) (p : R) : R :=
  rho sB tB ((pB + p) / 2) - rho (gS p) (gT p) ((pB + p) / 2).

(** joint continuity of a function of three variables at the points of D, along continuous curves *)
Definition continuous3 (D : domain) (rho : R -> R -> R -> R) : Prop :=
  forall (a b c : R -> R) x, continuity_pt a x -> continuity_pt b x -> continuity_pt c x ->
    dS D (a x) -> dT D (b x) -> dP D (c x) -> continuity_pt (fun x => rho (a x) (b x) (c x)) x.

(** any cast with at most one valid data site *)
Definition short_cast (S P : list xr) : Prop :=
  no_data P S \/ exists k ps ss, block P S k (k + 1) ps ss.

(** casts on which the code is defined: at most one valid site, or a proper block *)
Definition any_cast (c : list xr * list xr * list xr) : Prop :=
  let '(Sc, Tc, Pc) := c in
  short_cast Sc Pc \/ exists k K ss ts ps, cast Sc Tc Pc k K ss ts ps /\ (k + 1 < K)%nat.

(** the data of the cast are in the ranges D *)
Definition cast_in (D : domain) (c : list xr * list xr * list xr) : Prop :=
  let '(Sc, Tc, Pc) := c in
  forall k K ss ts ps, cast Sc Tc Pc k K ss ts ps ->
  forall i, (k <= i < K)%nat -> dS D (ss i) /\ dT D (ts i) /\ dP D (ps i).
(** the fuel suffices for root searches on the cast *)
Definition enough_fuel (fuel : nat) (tol : R) (c : list xr * list xr * list xr) : Prop :=
  (13 <= fuel)%nat /\
  let '(Sc, Tc, Pc) := c in
  forall k K ss ts ps, cast Sc Tc Pc k K ss ts ps -> 2 * (ps (K - 1)%nat - ps k) / tol + 1 <= INR fuel.
