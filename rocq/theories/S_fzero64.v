(** * Specification vocabulary for root finding in binary64 (independent of the model) *)
From Coq Require Import ZArith Reals SpecFloat.
From Verif Require Import Res S_float S_fzero.
Local Open Scope R_scope.

(** ordinary magnitudes: far from overflow and underflow *)
Definition ordinary (x : R) : Prop := Rabs x <= powerRZ 2 900.
Definition tolerance_ok (t : R) : Prop := powerRZ 2 (-900) <= t <= powerRZ 2 900.

(** a finite binary64 number between two others *)
Definition between64 (a b x : spec_float) : Prop := finite64 x /\ fval a <= fval x <= fval b.

(** [f] returns a finite number at every binary64 number between a and b *)
Definition defined_on (f : spec_float -> res spec_float) (a b : spec_float) : Prop :=
  forall x, between64 a b x -> exists y, f x = Ok y /\ finite64 y.

(** a root is found: x lies between a and b; the computed f(x) is zero, or the computed f has the
    other sign, and is no smaller, at a binary64 number y nearby *)
Definition found (f : spec_float -> res spec_float) (a b t x : spec_float) : Prop :=
  between64 a b x /\ exists fx, f x = Ok fx /\ finite64 fx /\
  (fval fx = 0 \/
   exists y fy, between64 a b y /\ f y = Ok fy /\ finite64 fy /\ opposite (fval fx) (fval fy) /\
     Rabs (fval fx) <= Rabs (fval fy) /\
     Rabs (fval x - fval y) <= brent_tol (fval x) (fval t) * (1 + powerRZ 2 (-50))).

(** the computed f does not change sign between the end points *)
Definition no_change (f : spec_float -> res spec_float) (a b : spec_float) : Prop :=
  exists a' b' fa fb, finite64 a' /\ finite64 b' /\ fval a' = fval a /\ fval b' = fval b /\
    f a' = Ok fa /\ f b' = Ok fb /\ ~ opposite (fval fa) (fval fb).

(** two numbers are equal, or at least 2^-1000 apart *)
Definition apart (x y : R) : Prop := x = y \/ powerRZ 2 (-1000) <= y - x.
