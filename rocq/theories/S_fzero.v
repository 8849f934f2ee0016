(** * Specification vocabulary for root finding (independent of the model) *)
From Coq Require Import Reals.
Local Open Scope R_scope.

(** machine epsilon of binary64, 2^-52 *)
Definition Reps : R := / 4503599627370496.

(** u and v lie on different sides of zero, in the convention "positive" vs
    "not positive" *)
Definition opposite (u v : R) : Prop := (0 < u /\ v <= 0) \/ (u <= 0 /\ 0 < v).

(** x is a zero of g, or g changes sign between x and a point of [lo,hi] at
    distance at most tol. *)
Definition near_root (g : R -> R) (lo hi x tol : R) : Prop :=
  g x = 0 \/ exists c, lo <= c <= hi /\ Rabs (x - c) <= tol /\ opposite (g x) (g c).

(** distance guaranteed by the stopping test of the root finder with tolerance t *)
Definition brent_tol (x t : R) : R := 2 * (2 * Reps * Rabs x + t).

Definition continuous_on (g : R -> R) (lo hi : R) : Prop :=
  forall x, lo <= x <= hi -> continuity_pt g x.
