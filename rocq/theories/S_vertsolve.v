(** * Specification vocabulary for surfaces found column by column *)
From Coq Require Import Reals List ZArith.
From Verif Require Import Num XR Res Arr Nd S_interp S_fzero S_traj.
Import ListNotations.
Local Open Scope R_scope.

(** A column: salinity, temperature and pressure arrays *)
Notation column := (list xr * list xr * list xr)%type.
Notation bottle := (xr * xr * xr)%type.

(** gS and gT are continuous interpolants (in the sense of rel) of the column's
    block k..K-1, within its data, and [lo, hi] is its range of pressures *)
Record profile (rel : nat -> (nat -> R) -> (nat -> R) -> (R -> R) -> Prop) (c : column)
    (gS gT : R -> R) (lo hi : R) : Prop := mkprofile {
  prof : exists k K ss ts ps, cast (fst (fst c)) (snd (fst c)) (snd c) k K ss ts ps /\ (k + 1 < K)%nat
           /\ rel (K - k)%nat (from k ps) (from k ss) gS /\ rel (K - k)%nat (from k ps) (from k ts) gT
           /\ within (K - k)%nat (from k ps) (from k ss) gS /\ within (K - k)%nat (from k ps) (from k ts) gT
           /\ lo = ps k /\ hi = ps (K - 1)%nat;
  prof_S : forall x, continuity_pt gS x;
  prof_T : forall x, continuity_pt gT x
}.

(** r = (s, t, p) is the point of the surface H(s, t, p) = 0 on column c, up to
    the tolerance of the root finder; all NaN if there is no sign change
    between the ends of the column, or too little data *)
Definition surface_point rel (H : R -> R -> R -> R) (tol : R) (c : column) (r : bottle) : Prop :=
  (short_cast (fst (fst c)) (snd c) /\ r = (NaN, NaN, NaN))
  \/ exists gS gT lo hi, profile rel c gS gT lo hi /\
       let h p := H (gS p) (gT p) p in
       (r = (NaN, NaN, NaN) /\ 0 < h lo * h hi)
       \/ exists p, r = (Fin (gS p), Fin (gT p), Fin p) /\ lo <= p <= hi /\ near_root h lo hi p (brent_tol p tol).

(** potential density (specific volume) and density anomaly *)
Definition potential_of (rho : R -> R -> R -> R) (ref isoval s t p : R) : R := rho s t ref - isoval.
Definition anomaly_of (rho : R -> R -> R -> R) (s0 t0 isoval s t p : R) : R := rho s t p - rho s0 t0 p - isoval.

(** the pair (z's) is a numpy index tuple for the multi-index ix; negative
    numbers count from the end *)
Fixpoint indexes (sh ix : list nat) (t : list Z) : Prop :=
  match sh, ix, t with
  | [], [], [] => True
  | n :: sh, i :: ix, z :: t =>
      (i < n)%nat /\ (z = Z.of_nat i \/ z = Z.of_nat i - Z.of_nat n)%Z /\ indexes sh ix t
  | _, _, _ => False
  end.

(** The documented ways to choose a surface (isopycnal.py:304-326): ref and
    isoval, or ref and a pinning point, or a pinning point alone *)
Definition documented (ref isoval pin_cast pin_p : bool) : Prop :=
  (ref = true /\ isoval = true) \/ (ref = true /\ pin_cast = true /\ pin_p = true)
  \/ (ref = false /\ isoval = false /\ pin_cast = true /\ pin_p = true).

(** The horizontal position with index tuple t is number n, and its column has
    data around pressure pp *)
Definition pin_ok (casts : nd column) (t : list Z) (n : nat) (pp : R) : Prop :=
  exists ix c k K ss ts ps, indexes (shape casts) ix t /\ n = ravel (shape casts) ix
    /\ nth_error (elems casts) n = Some c /\ cast (fst (fst c)) (snd (fst c)) (snd c) k K ss ts ps
    /\ (k + 1 < K)%nat /\ ps k <= pp <= ps (K - 1)%nat.
(** gS and gT are interpolants of that column *)
Definition pinned_at rel (casts : nd column) (t : list Z) (n : nat) (pp : R) (gS gT : R -> R) : Prop :=
  exists ix c lo hi, indexes (shape casts) ix t /\ n = ravel (shape casts) ix
    /\ nth_error (elems casts) n = Some c /\ profile rel c gS gT lo hi /\ lo <= pp <= hi.

(** h is strictly monotonic on [lo, hi] *)
Definition strictly_monotone (h : R -> R) (lo hi : R) : Prop :=
  (forall x y, lo <= x -> x < y -> y <= hi -> h x < h y) \/ (forall x y, lo <= x -> x < y -> y <= hi -> h y < h x).

(** what the omega update may be asked to do on a column *)
Definition omega_input (D : domain) (x : bottle) (ϕ : xr) : Prop :=
  ϕ = Fin 0 \/ ϕ = NaN \/ bottle_in D x /\ exists d, ϕ = Fin d.

(** the result y of the omega update of (s, t, p) = x on column c with density perturbation ϕ *)
Definition omega_output rel (rho : R -> R -> R -> R) (tol : R) (c : column) (x : bottle) (ϕ : xr) (y : bottle) : Prop :=
  (ϕ = Fin 0 -> y = x) /\ (ϕ = NaN -> y = (NaN, NaN, NaN))
  /\ forall s t p d, x = (Fin s, Fin t, Fin p) -> ϕ = Fin d -> d <> 0 ->
       surface_point rel (fun s' t' _ => rho s' t' p - (rho s t p + d)) tol c y.
