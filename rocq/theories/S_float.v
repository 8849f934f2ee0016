(** * Binary64 numbers: their form and the real number each stands for *)
From Coq Require Import ZArith Reals Bool SpecFloat.
Open Scope R_scope.

(** the real number a binary64 number stands for (0 for infinities and NaN) *)
Definition fval (x : spec_float) : R :=
  match x with
  | S754_finite s m e => (if s then - IZR (Zpos m) else IZR (Zpos m)) * powerRZ 2 e
  | _ => 0
  end.

(** the finite binary64 numbers: zeros; 53-bit mantissas with exponents from -1074 to 971,
    normalised unless the exponent is the smallest *)
Definition finite64 (x : spec_float) : Prop :=
  match x with
  | S754_zero _ => True
  | S754_finite _ m e =>
      (Zpos m < 2 ^ 53 /\ -1074 <= e <= 971 /\ (e = -1074 \/ 2 ^ 52 <= Zpos m))%Z
  | _ => False
  end.

(** a finite number within b of the real number r *)
Definition within (y : spec_float) (r b : R) : Prop := finite64 y /\ Rabs (fval y - r) <= b.
